(** Property theorems for src/constbuffer_array.c used from several threads (C55). *)
From Verif Require Import Common Block CMem Prog Sched CbcModel CbcSpec.
From Verif Require CslPool Rc CbcProofs CbcProofs2 CbcProofs6 CbcProofs7.

(** A program starts with no memory in use; whether each allocation succeeds is up to the oracle. *)
Definition init (oracle : list bool) : cst := St ∅ ∅ oracle 0.
(** What n threads that call these functions in any way the interface allows ([lib]), on references and blocks they hold, can arrive at, whichever atomic step each takes in turn. *)
Definition reachable (oracle : list bool) (n : nat) (c : cst * list (thread cst op res held)) : Prop := pool_steps lib (init oracle, replicate n (Idle [])) c.
Definition idle_holding (t : thread cst op res held) (hs : list held) : Prop := t = Idle hs.
(** In c, a call o is about to answer r; it was made in the state b. *)
Definition answering (c : cst * list (thread cst op res held)) (o : op) (r : res) (b : cst) : Prop := exists i rest, c.2 !! i = Some (Running o b (Ret r) rest).

Lemma all_proved oracle n c : reachable oracle n c ->
  ~ crashes c /\
  (forall o r b, answering c o r b -> exists f, f <= fails c.1 /\ answers o r (fails b) f) /\
  (forall i, i < n -> finishes lib i c) /\
  (forall hss, Forall2 idle_holding c.2 hss -> accounted (concat hss) c.1).
Proof.
  intros Hr. destruct (CslPool.pool_correct (Rc.RInv CbcProofs.repr CbcProofs.holds) lib CbcProofs2.own answers CbcProofs6.all_proved (init oracle) n c) as (H1&H2&H3&H4).
  - apply Rc.RInv_init, CbcProofs.repr_excl.
  - exact Hr.
  - split; [exact H1|]. split; [intros o r b (i&rest&Hi); exact (H2 _ _ _ _ _ Hi)|]. split; [exact H3|].
    intros hss Hs. destruct (H4 hss Hs) as (r&sh&Ha&Hb&Hc&Hd&He). exact (CbcProofs7.idle_accounted _ _ _ _ Ha Hb Hc Hd He).
Qed.

(** C55: whatever the threads do with arrays, views of them, blocks moved into them and the buffers in them, no step accesses or frees memory that is not there, so nothing is freed twice; every call answers
    after finitely many steps of its own thread; and between calls there are exactly the buffers, arrays and blocks that are held or that something that is there refers to: nothing, if nothing is held. *)
Theorem C55_arrays_freed_once_after_last_reference oracle n c : reachable oracle n c ->
  ~ crashes c /\ (forall i, i < n -> finishes lib i c) /\ (forall hss, Forall2 idle_holding c.2 hss -> accounted (concat hss) c.1).
Proof. intros Hr. destruct (all_proved oracle n c Hr) as (?&_&?&?). done. Qed.
Print Assumptions C55_arrays_freed_once_after_last_reference.

Lemma makes_more {A} (ok : Prop) (r : option A) f f1 f' : f1 <= f' -> makes ok r f f1 -> makes ok r f f'.
Proof. intros Hf [H1 H2]. split; [|done]. intros Ho Hn. specialize (H1 Ho Hn). lia. Qed.
(** C55: what the calls that make an array answer while other threads use the same arrays, and what the caller holds afterwards. Each fails when its arguments are not acceptable, and otherwise only when an
    allocation failed during the call; the caller keeps what it held. *)
Theorem C55_creating_calls oracle n c b : reachable oracle n c ->
  (forall l m from r, answering c (Create (Some l) m from) r b -> exists x, r = RHandle x /\ makes True x (fails b) (fails c.1) /\ gives (Create (Some l) m from) r = new_arr x (take (Z.to_nat m) l) ++ from) /\
  (forall r, answering c Empty r b -> exists x, r = RHandle x /\ makes True x (fails b) (fails c.1) /\ gives Empty r = new_arr x []) /\
  (forall k l sp m r, answering c (Move (Some (k, l, sp)) m) r b -> exists x, r = RHandle x /\ makes True x (fails b) (fails c.1) /\
     gives (Move (Some (k, l, sp)) m) r = match x with Some a => [Arr a l] | None => [Blk k l sp] end) /\
  (forall a l i m r, answering c (View (Some (a, l)) i m) r b -> exists x, r = RHandle x /\ makes (i + m <= len l)%Z x (fails b) (fails c.1) /\
     gives (View (Some (a, l)) i m) r = new_arr x (take (Z.to_nat m) (drop (Z.to_nat i) l)) ++ [Arr a l]) /\
  (forall a l i m skip keep r, answering c (Slice (Some (a, l)) i m skip keep) r b -> exists x, r = RArr x /\ let part := take (Z.to_nat m) (drop (Z.to_nat i) l) in
     makes (i + m <= len l /\ slice_ok (map snd part) skip keep)%Z x (fails b) (fails c.1) /\ gives (Slice (Some (a, l)) i m skip keep) r = hold_arr x ++ [Arr a l] /\
     (forall h l', x = Some (h, l') -> map snd l' = slice_bytes (map snd part) skip keep /\ map fst (inner l') = map fst (inner part))) /\
  (forall ls m from r, answering c (Concat (Some ls) m from) r b -> exists x, r = RHandle x /\ makes (exists j, joined (Some ls) m = Some j /\ len j <= UINT32_MAX)%Z x (fails b) (fails c.1) /\
     gives (Concat (Some ls) m from) r = new_arr x (default [] (joined (Some ls) m)) ++ from) /\
  (forall a l y from r, answering c (AddFront (Some (a, l)) (Some y) from) r b -> exists x, r = RHandle x /\ makes (len l < UINT32_MAX)%Z x (fails b) (fails c.1) /\
     gives (AddFront (Some (a, l)) (Some y) from) r = new_arr x (y :: l) ++ Arr a l :: from) /\
  (forall a l y from r, answering c (AddBack (Some (a, l)) (Some y) from) r b -> exists x, r = RHandle x /\ makes (len l < UINT32_MAX)%Z x (fails b) (fails c.1) /\
     gives (AddBack (Some (a, l)) (Some y) from) r = new_arr x (l ++ [y]) ++ Arr a l :: from) /\
  (forall a l r, answering c (RemoveFront (Some (a, l)) true) r b -> exists x, r = RPair x /\ makes (l <> []) x (fails b) (fails c.1) /\
     (forall h y, x = Some (h, y) -> exists z l', l = z :: l' /\ y = z.1 /\ gives (RemoveFront (Some (a, l)) true) r = [to_buf z; Arr h l'; Arr a l])) /\
  (forall a l r, answering c (RemoveBack (Some (a, l)) true) r b -> exists x, r = RPair x /\ makes (l <> []) x (fails b) (fails c.1) /\
     (forall h y, x = Some (h, y) -> exists z l', l = l' ++ [z] /\ y = z.1 /\ gives (RemoveBack (Some (a, l)) true) r = [to_buf z; Arr h l'; Arr a l])) /\
  (forall a l r, answering c (NoEmpty (Some (a, l))) r b -> exists x, r = RHandle x /\ makes True x (fails b) (fails c.1) /\
     gives (NoEmpty (Some (a, l))) r = new_arr x (filter (fun y => y.2 <> []) l) ++ [Arr a l]).
Proof.
  intros Hr. destruct (all_proved oracle n c Hr) as (_&Ha&_&_).
  assert (Hm : forall {A} (ok ok' : Prop) (x : option A) f, f <= fails c.1 -> (ok <-> ok') -> makes ok x (fails b) f -> makes ok' x (fails b) (fails c.1)).
  { intros A ok ok' x f Hf He H. apply (CbcProofs6.makes_iff ok); [done|]. by eapply makes_more. }
  assert (Hme : forall {A} (x : option A) f, f <= fails c.1 -> made x (fails b) f -> makes True x (fails b) (fails c.1)).
  { intros A x f Hf H. split; [|done]. intros _ Hn. specialize (H Hn). lia. }
  split_and!.
  - intros l m from r H. destruct (Ha _ _ _ H) as (f&Hf&Hans). destruct r as [|x| | | | | |]; try done. exists x. split; [done|]. split; [|done]. eapply Hm; [done| |exact Hans]. split; [done|by left].
  - intros r H. destruct (Ha _ _ _ H) as (f&Hf&Hans). destruct r as [|x| | | | | |]; try done. exists x. split; [done|]. split; [|done]. by eapply Hme.
  - intros k l sp m r H. destruct (Ha _ _ _ H) as (f&Hf&Hans). destruct r as [|x| | | | | |]; try done. exists x. split; [done|]. split; [|by destruct x]. eapply Hm; [done| |exact Hans]. done.
  - intros a l i m r H. destruct (Ha _ _ _ H) as (f&Hf&Hans). destruct r as [|x| | | | | |]; try done. exists x. split; [done|]. split; [|done]. eapply Hm; [done| |exact Hans]. simpl. split; [by intros []|done].
  - intros a l i m skip keep r H. destruct (Ha _ _ _ H) as (f&Hf&Hans). destruct r as [| | | | | |x|]; try done. exists x. split; [done|]. destruct Hans as [H1 H2]. split; [|split; [done|exact H2]]. eapply Hm; [done| |exact H1]. simpl. split; [by intros []|done].
  - intros ls m from r H. destruct (Ha _ _ _ H) as (f&Hf&Hans). destruct r as [|x| | | | | |]; try done. exists x. split; [done|]. split; [|done]. eapply Hm; [done| |exact Hans]. split; [by intros []|]. intros. split; [by left|done].
  - intros a l y from r H. destruct (Ha _ _ _ H) as (f&Hf&Hans). destruct r as [|x| | | | | |]; try done. exists x. split; [done|]. split; [|done]. eapply Hm; [done| |exact Hans]. simpl. split; [by intros (_&_&?)|done].
  - intros a l y from r H. destruct (Ha _ _ _ H) as (f&Hf&Hans). destruct r as [|x| | | | | |]; try done. exists x. split; [done|]. split; [|done]. eapply Hm; [done| |exact Hans]. simpl. split; [by intros (_&_&?)|done].
  - intros a l r H. destruct (Ha _ _ _ H) as (f&Hf&Hans). destruct r as [| |x| | | | |]; try done. exists x. split; [done|]. destruct Hans as [H1 H2]. split; [eapply Hm; [done| |exact H1]; simpl; split; [by intros []|done]|].
    intros h y ->. specialize (H2 h y eq_refl). destruct l as [|z l]; [done|]. injection H2 as <-. by exists z, l.
  - intros a l r H. destruct (Ha _ _ _ H) as (f&Hf&Hans). destruct r as [| |x| | | | |]; try done. exists x. split; [done|]. destruct Hans as [H1 H2]. split; [eapply Hm; [done| |exact H1]; simpl; split; [by intros []|done]|].
    intros h y ->. specialize (H2 h y eq_refl). destruct l as [|z l _] using rev_ind; [done|]. cbn [seq] in H2. rewrite map_app in H2. change (map fst [z]) with [z.1] in H2. rewrite last_snoc in H2. injection H2 as <-. exists z, l. split; [done|]. split; [done|]. simpl. rewrite last_snoc, removelast_last. done.
  - intros a l r H. destruct (Ha _ _ _ H) as (f&Hf&Hans). destruct r as [|x| | | | | |]; try done. exists x. split; [done|]. split; [|done]. eapply Hm; [done| |exact Hans]. done.
Qed.
Print Assumptions C55_creating_calls.

(** C55: an array reads as the same sequence of buffers, and a buffer as the same bytes, whatever other threads do. NULL arguments and missing outputs are refused. *)
Theorem C55_reading_calls oracle n c b : reachable oracle n c ->
  (forall x from r, answering c (Read x from) r b -> r = RBytes (Some x.2)) /\
  (forall a l r, answering c (Count (Some (a, l)) true) r b -> r = RNum (Some (len l))) /\
  (forall a l i r, answering c (Get (Some (a, l)) i) r b -> r = RHandle (fst <$> l !! Z.to_nat i) /\ forall x, l !! Z.to_nat i = Some x -> gives (Get (Some (a, l)) i) r = [to_buf x; Arr a l]) /\
  (forall a l i r, answering c (Content (Some (a, l)) i) r b -> r = RBytes (snd <$> l !! Z.to_nat i)) /\
  (forall a l r, answering c (Size (Some (a, l)) true) r b -> r = RNum (if decide (total l <= UINT32_MAX)%Z then Some (total l) else None)) /\
  (forall a l r, answering c (Handles (Some (a, l))) r b -> r = RList (Some (map fst l))) /\
  (forall a l a' l' from r, answering c (Same (Some (a, l)) (Some (a', l')) from) r b -> exists e, r = RBool e /\ (e = true <-> map snd l = map snd l')) /\
  (forall a l from r, answering c (Same (Some (a, l)) None from) r b \/ answering c (Same None (Some (a, l)) from) r b -> r = RBool false) /\
  (forall from r, answering c (Same None None from) r b -> r = RBool true) /\
  (forall i r, (answering c (Count None i) r b -> r = RNum None) /\ (answering c (Size None i) r b -> r = RNum None)) /\
  (forall a r, (answering c (Count a false) r b -> r = RNum None) /\ (answering c (Size a false) r b -> r = RNum None) /\ (answering c (RemoveFront a false) r b \/ answering c (RemoveBack a false) r b -> r = RPair None)) /\
  (forall i m r, (answering c (Get None i) r b -> r = RHandle None) /\ (answering c (Content None i) r b -> r = RBytes None) /\ (answering c (View None i m) r b -> r = RHandle None)) /\
  (forall r, (answering c (Handles None) r b -> r = RList None) /\ (answering c (NoEmpty None) r b -> r = RHandle None)) /\
  (forall m from r, answering c (Create None m from) r b \/ answering c (Concat None m from) r b -> m <> 0%Z -> r = RHandle None) /\
  (forall a x from r, answering c (AddFront None x from) r b \/ answering c (AddFront a None from) r b \/ answering c (AddBack None x from) r b \/ answering c (AddBack a None from) r b -> r = RHandle None) /\
  (forall out r, answering c (RemoveFront None out) r b \/ answering c (RemoveBack None out) r b -> r = RPair None).
Proof.
  intros Hr. destruct (all_proved oracle n c Hr) as (_&Ha&_&_).
  assert (Hno : forall {A} (ok : Prop) (x : option A) f f', makes ok x f f' -> ~ ok -> x = None). { intros A ok x f f' [_ H]. exact H. }
  split_and!.
  - intros x from r H. destruct (Ha _ _ _ H) as (f&Hf&Hans). destruct r; try done. simpl in Hans. by subst.
  - intros a l r H. destruct (Ha _ _ _ H) as (f&Hf&Hans). destruct r; try done. simpl in Hans. by subst.
  - intros a l i r H. destruct (Ha _ _ _ H) as (f&Hf&Hans). destruct r; try done. simpl in Hans. subst. split; [done|]. intros x Hx. simpl. by rewrite Hx.
  - intros a l i r H. destruct (Ha _ _ _ H) as (f&Hf&Hans). destruct r; try done. simpl in Hans. by subst.
  - intros a l r H. destruct (Ha _ _ _ H) as (f&Hf&Hans). destruct r; try done. unfold answers in Hans. subst. f_equal. destruct (decide (total l <= UINT32_MAX)%Z); [by rewrite decide_True|rewrite decide_False; [done|by intros []]].
  - intros a l r H. destruct (Ha _ _ _ H) as (f&Hf&Hans). destruct r; try done. simpl in Hans. by subst.
  - intros a l a' l' from r H. destruct (Ha _ _ _ H) as (f&Hf&Hans). destruct r; try done. eexists. split; [done|]. simpl in Hans. subst. rewrite bool_decide_eq_true. split; congruence.
  - intros a l from r [H|H]; destruct (Ha _ _ _ H) as (f&Hf&Hans); destruct r; try done; simpl in Hans; by subst.
  - intros from r H. destruct (Ha _ _ _ H) as (f&Hf&Hans). destruct r; try done. simpl in Hans. by subst.
  - intros i r. split; intros H; destruct (Ha _ _ _ H) as (f&Hf&Hans); destruct r; try done; simpl in Hans; subst; by destruct i.
  - intros a r. split; [|split].
    + intros H. destruct (Ha _ _ _ H) as (f&Hf&Hans); destruct r; try done. simpl in Hans. by subst.
    + intros H. destruct (Ha _ _ _ H) as (f&Hf&Hans); destruct r; try done. unfold answers in Hans. subst. by destruct a as [[? ?]|].
    + intros [H|H]; destruct (Ha _ _ _ H) as (f&Hf&Hans); destruct r; try done; destruct Hans as [Hans _]; f_equal; (eapply Hno; [exact Hans|]); by intros [? _].
  - intros i m r. split; [|split]; intros H; destruct (Ha _ _ _ H) as (f&Hf&Hans); destruct r; try done; simpl in Hans; [by subst..|]. f_equal. eapply Hno; [exact Hans|]. by intros [? _].
  - intros r. split; intros H; destruct (Ha _ _ _ H) as (f&Hf&Hans); destruct r; try done; simpl in Hans; [by subst|]. f_equal. eapply Hno; [exact Hans|]. by intros [].
  - intros m from r [H|H] Hz; destruct (Ha _ _ _ H) as (f&Hf&Hans); destruct r; try done; simpl in Hans; f_equal; (eapply Hno; [exact Hans|]); [by intros [?|?]|by intros [[?|?] _]].
  - intros a x from r [H|[H|[H|H]]]; destruct (Ha _ _ _ H) as (f&Hf&Hans); destruct r; try done; simpl in Hans; f_equal; (eapply Hno; [exact Hans|]); intros (?&?&?); done.
  - intros out r [H|H]; destruct (Ha _ _ _ H) as (f&Hf&Hans); destruct r; try done; destruct Hans as [Hans _]; f_equal; (eapply Hno; [exact Hans|]); by intros [_ ?].
Qed.
Print Assumptions C55_reading_calls.

(** A run of two threads: thread 0 makes two buffers, moves a block with their handles into an array, makes a view of its second buffer and a view of that view, hands the inner view to thread 1 and drops the
    others while thread 1 reads; the array, the block and both buffers go when thread 1 drops its view. *)
Local Instance held_eq : EqDecision held.
Proof. solve_decision. Defined.
Definition x1 : buf := (1%positive, [7; 8]%Z).
Definition x2 : buf := (2%positive, [9]%Z).
Definition schedule1 : list (nat * turn op held) :=
  [(0, Call (Buffer [7; 8]%Z)); (0, Go 1); (0, Answer); (0, Call (Buffer [9]%Z)); (0, Go 1); (0, Answer); (0, Call (Alloc [x1; x2] 1)); (0, Go 1); (0, Answer);
   (0, Call (Move (Some (3%positive, [x1; x2], 1)) 2)); (0, Go 2); (0, Answer); (0, Call (View (Some (4%positive, [x1; x2])) 1 1)); (0, Go 4); (0, Answer);
   (0, Call (View (Some (5%positive, [x2])) 0 1)); (0, Go 4); (0, Answer); (0, Hand 1 (Arr 6 [x2])); (0, Call (DecArr (Some (4%positive, [x1; x2])))); (1, Call (Content (Some (6%positive, [x2])) 0)); (1, Go 2); (0, Go 1); (0, Answer);
   (0, Call (DecArr (Some (5%positive, [x2])))); (0, Go 1); (1, Go 2)].
Definition schedule2 : list (nat * turn op held) := [(0, Answer); (1, Answer); (1, Call (DecArr (Some (6%positive, [x2])))); (1, Go 20); (1, Answer)].
Example ex_view_outlives : exists c, reachable [] 2 c /\ (exists b, answering c (Content (Some (6%positive, [x2])) 0) (RBytes (Some [9]%Z)) b) /\ length (map_to_list (objs c.1)) = 6.
Proof.
  apply (sched_reaches lib schedule1).
  - repeat constructor; simpl; unfold is_u32, len, UINT32_MAX; simpl; try done; lia.
  - assert (match sched lib schedule1 (init [], replicate 2 (Idle [])) with
            | Some c => match c.2 !! 1 with Some (Running o _ (Ret r) _) => o = Content (Some (6%positive, [x2])) 0 /\ r = RBytes (Some [9]%Z) | _ => False end /\ length (map_to_list (objs c.1)) = 6
            | None => False
            end) as H by (vm_compute; auto).
    destruct (sched lib schedule1 _) as [c|]; [|exact H]. destruct H as [H1 H2]. split; [|exact H2]. destruct (c.2 !! 1) as [[|o b [r|] hs]|] eqn:E; try destruct H1. exists b, 1, hs. subst. exact E.
Qed.
Example ex_all_dropped : exists c, reachable [] 2 c /\ Forall2 idle_holding c.2 [[]; []] /\ map_to_list (objs c.1) = [].
Proof.
  apply (sched_reaches lib (schedule1 ++ schedule2)).
  - repeat constructor; simpl; unfold is_u32, len, UINT32_MAX; simpl; try done; lia.
  - vm_compute. split; [|reflexivity]. repeat constructor.
Qed.
(** A slice of [7 8] [9 10] without the first and the last byte, made while thread 1, which holds a reference of its own to the array, drops that. *)
Definition y1 : buf := (1%positive, [7; 8]%Z).
Definition y2 : buf := (2%positive, [9; 10]%Z).
Definition schedule3 : list (nat * turn op held) :=
  [(0, Call (Buffer [7; 8]%Z)); (0, Go 1); (0, Answer); (0, Call (Buffer [9; 10]%Z)); (0, Go 1); (0, Answer); (0, Call (Create (Some [y1; y2]) 2 [to_buf y2; to_buf y1])); (0, Go 6); (0, Answer);
   (0, Call (Dec y1)); (0, Go 1); (0, Answer); (0, Call (Dec y2)); (0, Go 1); (0, Answer); (0, Call (IncArr (Some (3%positive, [y1; y2])))); (0, Go 1); (0, Answer); (0, Hand 1 (Arr 3 [y1; y2]));
   (0, Call (Slice (Some (3%positive, [y1; y2])) 0 2 1 1)); (0, Go 12); (1, Call (DecArr (Some (3%positive, [y1; y2])))); (1, Go 1); (0, Go 14)].
Example ex_slice : exists c, reachable [] 2 c /\ exists b h1 h2 h3, answering c (Slice (Some (3%positive, [y1; y2])) 0 2 1 1) (RArr (Some (h1, [(h2, [8]%Z); (h3, [9]%Z)]))) b.
Proof.
  apply (sched_reaches lib schedule3).
  - repeat constructor; simpl; unfold is_u32, len, reaches, UINT32_MAX; simpl; try done; try lia; left; set_solver.
  - assert (match sched lib schedule3 (init [], replicate 2 (Idle [])) with
            | Some c => match c.2 !! 0 with Some (Running o _ (Ret r) _) => o = Slice (Some (3%positive, [y1; y2])) 0 2 1 1 /\ r = RArr (Some (4%positive, [(5%positive, [8]%Z); (6%positive, [9]%Z)])) | _ => False end
            | None => False
            end) as H by (vm_compute; auto).
    destruct (sched lib schedule3 _) as [c|]; [|exact H]. destruct (c.2 !! 0) as [[|o b [r|] hs]|] eqn:E; try destruct H. exists b, 4%positive, 5%positive, 6%positive, 0, hs. subst. exact E.
Qed.
