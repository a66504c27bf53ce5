(** Property theorems for src/constbuffer.c (C15, C16, C17, C18). *)
From Verif Require Import Common Block CMem Prog MemDataModel MemDataSpec Sched ConstBufModel ConstBufSpec.
From Verif Require MemDataProofs CslPool Rc ConstBufProofs ConstBufProofs2 ConstBufProofs3.

(** A program starts with no memory in use; whether each allocation succeeds is up to the oracle. *)
Definition init (oracle : list bool) : cst := St ∅ ∅ oracle 0.
(** What n threads that call CONSTBUFFER functions in any way the interface allows ([lib]), on references and memory they hold, can arrive at,
    whichever atomic step each takes in turn. *)
Definition reachable (oracle : list bool) (n : nat) (c : cst * list (thread cst op res held)) : Prop := pool_steps lib (init oracle, replicate n (Idle [])) c.
Definition idle_holding (t : thread cst op res held) (hs : list held) : Prop := t = Idle hs.
(** In c, a call o is about to answer r; it was made in the state b. *)
Definition answering (c : cst * list (thread cst op res held)) (o : op) (r : res) (b : cst) : Prop := exists i rest, c.2 !! i = Some (Running o b (Ret r) rest).

Lemma all_proved oracle n c : reachable oracle n c ->
  ~ crashes c /\
  (forall o r b, answering c o r b -> exists f, f <= fails c.1 /\ answers o r (fails b) f) /\
  (forall i, i < n -> finishes lib i c) /\
  (forall hss, Forall2 idle_holding c.2 hss -> accounted (concat hss) c.1).
Proof.
  intros Hr. destruct (CslPool.pool_correct (Rc.RInv ConstBufProofs.repr ConstBufProofs.holds) lib ConstBufProofs.own answers ConstBufProofs2.spec (init oracle) n c) as (H1&H2&H3&H4).
  - apply Rc.RInv_init, ConstBufProofs.repr_excl.
  - exact Hr.
  - split; [exact H1|]. split; [intros o r b (i&rest&Hi); exact (H2 _ _ _ _ _ Hi)|]. split; [exact H3|].
    intros hss Hs. destruct (H4 hss Hs) as (r&sh&Ha&Hb&Hc&Hd&He). exact (ConstBufProofs3.idle_accounted _ _ _ _ Ha Hb Hc Hd He).
Qed.

(** C15: whatever the threads do, no step accesses memory that is not there (in particular none frees twice), every call answers after finitely many steps of its own thread, and between calls
    there are exactly the buffers and the memory that are held or that a view needs; nothing, if nothing is held. (Reading through a reference gives its contents: C16.) *)
Theorem C15_contents_live_as_long_as_references oracle n c : reachable oracle n c ->
  ~ crashes c /\ (forall i, i < n -> finishes lib i c) /\ (forall hss, Forall2 idle_holding c.2 hss -> accounted (concat hss) c.1).
Proof. intros Hr. destruct (all_proved oracle n c Hr) as (?&?&?&?). auto. Qed.
Print Assumptions C15_contents_live_as_long_as_references.

(** A run of two threads: thread 0 copies [7 8 9], makes a view of the last two bytes and hands it to thread 1; thread 0 then drops the buffer while thread 1 reads the view;
    the buffer goes when thread 1 drops the view. *)
Local Instance held_eq : EqDecision held.
Proof. solve_decision. Defined.
Definition b1 : bytes := [7; 8; 9]%Z.
Definition v1 : bytes := [8; 9]%Z.
Definition schedule1 : list (nat * turn op held) :=
  [(0, Call (Create (Some b1) 3)); (0, Go 3); (0, Answer); (0, Call (CreateFromOffsetAndSize (Some (1%positive, b1)) 1 2)); (0, Go 3); (0, Answer); (0, Hand 1 (Ref 2 v1));
   (0, Call (DecRef (Some (1%positive, b1)))); (1, Call (Read (Some (2%positive, v1)))); (1, Go 1); (0, Go 1); (1, Go 1)].
Definition schedule2 : list (nat * turn op held) := [(0, Answer); (1, Answer); (1, Call (DecRef (Some (2%positive, v1)))); (1, Go 6); (1, Answer)].
Example ex_view_outlives : exists c, reachable [] 2 c /\
  (exists b, answering c (Read (Some (2%positive, v1))) (RBytes (Some v1)) b) /\ map_to_list (objs c.1) = [(1%positive, CBuf (AStorage 1 0) 3 (Copied (bytes_block b1)) 1); (2%positive, CBuf (AStorage 1 1) 2 (FromOffsetAndSize 1) 1)].
Proof.
  apply (sched_reaches lib schedule1).
  - repeat constructor; simpl; done.
  - assert (match sched lib schedule1 (init [], replicate 2 (Idle [])) with
            | Some c => match c.2 !! 1 with Some (Running o _ (Ret r) _) => o = Read (Some (2%positive, v1)) /\ r = RBytes (Some v1) | _ => False end /\
                        map_to_list (objs c.1) = [(1%positive, CBuf (AStorage 1 0) 3 (Copied (bytes_block b1)) 1); (2%positive, CBuf (AStorage 1 1) 2 (FromOffsetAndSize 1) 1)]
            | None => False
            end) as H by (vm_compute; auto).
    destruct (sched lib schedule1 _) as [c|]; [|exact H]. destruct H as [H1 H2]. split; [|exact H2]. destruct (c.2 !! 1) as [[|o b [r|] hs]|] eqn:E; try destruct H1. exists b, 1, hs. subst. exact E.
Qed.
Example ex_all_dropped : exists c, reachable [] 2 c /\ Forall2 idle_holding c.2 [[]; []] /\ map_to_list (objs c.1) = [].
Proof.
  apply (sched_reaches lib (schedule1 ++ schedule2)).
  - repeat constructor; simpl; done.
  - vm_compute. split; [|reflexivity]. repeat constructor.
Qed.

(** C16, for calls answered in any such run: a view is made exactly when it is inside the buffer (the sum is not taken modulo 2^32) unless an allocation fails; reading through a reference gives the
    contents it was made with, which for a view is the slice (see [gives]); contain_same compares contents. Views of views are views. *)
Theorem C16_views_are_slices oracle n c b : reachable oracle n c ->
  (forall h x offset sz r, answering c (CreateFromOffsetAndSize (Some (h, x)) offset sz) (RHandle r) b ->
     (offset + sz > size_of x -> r = None)%Z /\ ((offset + sz <= size_of x)%Z -> r = None -> fails b < fails c.1) /\
     gives (CreateFromOffsetAndSize (Some (h, x)) offset sz) (RHandle r) = Ref h x :: match r with Some h' => [Ref h' (slice (Z.to_nat offset) (Z.to_nat sz) x)] | None => [] end) /\
  (forall h x r, answering c (Read (Some (h, x))) r b -> r = RBytes (Some x)) /\
  (forall h x h' y r, answering c (ContainSame (Some (h, x)) (Some (h', y))) r b -> exists e, r = RBool e /\ (e = true <-> x = y)) /\
  (forall h x r, answering c (ContainSame (Some (h, x)) None) r b \/ answering c (ContainSame None (Some (h, x))) r b -> r = RBool false) /\
  (forall r, answering c (ContainSame None None) r b -> r = RBool true) /\
  (forall x o1 n1 o2 n2, o2 + n2 <= n1 -> slice o2 n2 (slice o1 n1 x) = slice (o1 + o2) n2 x).
Proof.
  intros Hr. destruct (all_proved oracle n c Hr) as (_&Ha&_&_). split_and!.
  - intros h x offset sz r H. destruct (Ha _ _ _ H) as (f&Hf&Hans). cbn [answers] in Hans. destruct (decide (offset + sz > size_of x)%Z) as [Hd|Hd].
    + split; [done|]. split; [lia|]. by destruct r.
    + split; [lia|]. split; [|by destruct r]. intros _ ->. destruct (decide _) in Hans; [done|]. specialize (Hans eq_refl). lia.
  - intros h x r H. destruct (Ha _ _ _ H) as (f&Hf&Hans). destruct r; try done. simpl in Hans. by subst.
  - intros h x h' y r H. destruct (Ha _ _ _ H) as (f&Hf&Hans). destruct r; try done. eexists. split; [done|]. simpl in Hans. subst. rewrite bool_decide_eq_true. split; congruence.
  - intros h x r H. destruct H as [H|H]; destruct (Ha _ _ _ H) as (f&Hf&Hans); destruct r; try done; simpl in Hans; by subst.
  - intros r H. destruct (Ha _ _ _ H) as (f&Hf&Hans). destruct r; try done. simpl in Hans. by subst.
  - intros x o1 n1 o2 n2 Hl. unfold slice. rewrite skipn_firstn_comm, take_take, drop_drop. f_equal. lia.
Qed.
Print Assumptions C16_views_are_slices.
(** Not vacuous: the read of [ex_view_outlives] is such a call. *)

(** C17: the serialised bytes; what deserialising accepts, and what it returns. *)
Theorem C17_serialization_round_trip oracle n c b : reachable oracle n c ->
  (forall h x r, answering c (GetSerializationSize (Some (h, x))) r b -> r = RNum (if decide (5 + size_of x <= UINT32_MAX) then size_of (serialized x) else 0)%Z) /\
  (forall h x r, answering c (ToBuffer (Some (h, x)) true) r b ->
     (exists p, (5 + size_of x <= UINT32_MAX)%Z /\ r = RToBuffer (Some (p, size_of (serialized x))) /\ gives (ToBuffer (Some (h, x)) true) r = [Ref h x; Mem p (serialized x)]) \/
     (r = RToBuffer None /\ gives (ToBuffer (Some (h, x)) true) r = [Ref h x] /\ ((5 + size_of x > UINT32_MAX)%Z \/ fails b < fails c.1))) /\
  (forall h x p l m r, answering c (ToFixedSizeBuffer (Some (h, x)) (Some (p, l)) m true) r b ->
     let o := ToFixedSizeBuffer (Some (h, x)) (Some (p, l)) m true in
     if decide (5 + size_of x > UINT32_MAX)%Z then r = RToFixed TO_FIXED_ERROR None /\ gives o r = [Ref h x; Mem p l]
     else if decide (size_of (serialized x) > m)%Z then r = RToFixed TO_FIXED_INSUFFICIENT_BUFFER (Some (size_of (serialized x))) /\ gives o r = [Ref h x; Mem p l]
     else r = RToFixed TO_FIXED_OK (Some (size_of (serialized x))) /\ gives o r = [Ref h x; Mem p (serialized x ++ drop (length (serialized x)) l)]) /\
  (forall p l m r, m <> 0%Z -> answering c (FromBuffer (Some (p, l)) m true true) r b -> let o := FromBuffer (Some (p, l)) m true true in
     (exists h x, parsed (take (Z.to_nat m) l) x /\ r = RFrom FROM_OK (Some (h, size_of (serialized x))) /\ gives o r = [Mem p l; Ref h x]) \/
     (r = RFrom FROM_INVALID_DATA None /\ (forall x, ~ parsed (take (Z.to_nat m) l) x)) \/
     (r = RFrom FROM_ERROR None /\ fails b < fails c.1)) /\
  (forall x rest, (size_of x <= UINT32_MAX)%Z -> parsed (serialized x ++ rest) x) /\
  (forall l x y, parsed l x -> parsed l y -> x = y).
Proof.
  intros Hr. destruct (all_proved oracle n c Hr) as (_&Ha&_&_). split_and!.
  - intros h x r H. destruct (Ha _ _ _ H) as (f&Hf&Hans). destruct r; try done. cbn [answers] in Hans. rewrite ConstBufProofs2.size_serialized. by subst.
  - intros h x r H. destruct (Ha _ _ _ H) as (f&Hf&Hans). destruct r as [| | | | |r| |]; try done. cbn [answers] in Hans. destruct (decide _) as [Hd|Hd] in Hans.
    + destruct r as [[p m]|]; [left; exists p; subst m; done|right]. split; [done|]. split; [done|]. right. lia.
    + subst r. right. split; [done|]. split; [done|]. left. lia.
  - intros h x p l m r H. destruct (Ha _ _ _ H) as (f&Hf&Hans). destruct r as [| | | | | |r k|]; try done. cbn [answers] in Hans. cbn zeta. destruct (decide _) as [Hd|Hd] in Hans.
    + rewrite decide_False by lia. destruct Hans as [-> ->]. destruct (decide (size_of (serialized x) <= m)%Z) as [He|He].
      * rewrite decide_False by lia. split; [done|]. assert (length (serialized x) = 5 + length x) as ->; [|done]. pose proof (ConstBufProofs2.size_serialized x) as Hs. unfold size_of in Hs. lia.
      * rewrite decide_True by lia. done.
    + rewrite decide_True by lia. destruct Hans as [-> ->]. done.
  - intros p l m r Hm H. destruct (Ha _ _ _ H) as (f&Hf&Hans). destruct r as [| | | | | | |r d]; try done. cbn [answers] in Hans. cbn zeta. rewrite decide_False in Hans by done. destruct r, d as [[h k]|]; try done.
    + left. destruct Hans as (x&Hp&->). exists h, x. split; [done|]. split; [done|]. cbn [gives]. do 3 f_equal. destruct Hp as (rest&E&_).
      rewrite ConstBufProofs2.size_serialized. unfold size_of. replace (Z.to_nat (5 + Z.of_nat (length x)) - 5) with (length x) by lia.
      assert (l = serialized x ++ rest ++ drop (Z.to_nat m) l) as El. { rewrite (assoc_L (++)), <-E. by rewrite take_drop. }
      rewrite El. unfold slice, serialized. pose proof (MemDataProofs.be_bytes_length 4 (size_of x)) as Hl. destruct (be_bytes 4 (size_of x)) as [|e0 [|e1 [|e2 [|e3 [|]]]]]; try done. cbn [app drop]. by rewrite drop_0, take_app.
    + right. right. split; [done|]. lia.
    + right. left. done.
  - intros x rest Hs. by exists rest.
  - intros l x y (r1&E1&H1) (r2&E2&H2). rewrite E1 in E2. unfold serialized in E2. rewrite <-!app_comm_cons, <-!(assoc_L (++)) in E2. apply (f_equal tail) in E2. cbn [tail] in E2.
    apply app_inj_1 in E2 as [Eb Ec]; [|by rewrite !MemDataProofs.be_bytes_length]. apply (f_equal be_value) in Eb. rewrite !MemDataProofs.be_value_bytes in Eb. change (256 ^ Z.of_nat 4)%Z with 4294967296%Z in Eb.
    unfold size_of, UINT32_MAX in *. rewrite !Z.mod_small in Eb by lia. apply app_inj_1 in Ec as [-> _]; [done|lia].
Qed.
Print Assumptions C17_serialization_round_trip.

(** A run in which a buffer is serialised, and read back from a larger block. *)
Definition s1 : bytes := serialized b1.
Definition schedule3 : list (nat * turn op held) :=
  [(0, Call (Create (Some b1) 3)); (0, Go 3); (0, Answer); (0, Call (ToBuffer (Some (1%positive, b1)) true)); (0, Go 6); (0, Answer); (0, Call (FromBuffer (Some (1%positive, s1)) 8 true true)); (0, Go 5)].
Example ex_round_trip : exists c, reachable [] 1 c /\ exists b h, answering c (FromBuffer (Some (1%positive, [1; 0; 0; 0; 3; 7; 8; 9]%Z)) 8 true true) (RFrom FROM_OK (Some (h, 8%Z))) b.
Proof.
  apply (sched_reaches lib schedule3).
  - repeat constructor; simpl; try done; lia.
  - assert (match sched lib schedule3 (init [], replicate 1 (Idle [])) with
            | Some c => match c.2 !! 0 with Some (Running o _ (Ret r) _) => o = FromBuffer (Some (1%positive, [1; 0; 0; 0; 3; 7; 8; 9]%Z)) 8 true true /\ r = RFrom FROM_OK (Some (2%positive, 8%Z)) | _ => False end
            | None => False
            end) as H by (vm_compute; auto).
    destruct (sched lib schedule3 _) as [c|]; [|exact H]. destruct (c.2 !! 0) as [[|o b [r|] hs]|] eqn:E; try destruct H. exists b, 2%positive, 0, hs. subst. exact E.
Qed.

(** C18 is false of CONSTBUFFER_SealWritableHandle: the sealed handle shares the memory of the writable one, whose pointer still writes to it. *)
Section seal.
Local Open Scope prog_scope.
Definition contents (h : ptr) : code (option bytes) :=
  let* c := CONSTBUFFER_GetContent h in match c with None => Ret None | Some (a, n) => let* l := act (bind (read_addr a (Z.to_nat n)) values) in Ret (Some l) end.
Definition write_after_seal (x y : Z) : code (option bytes * option bytes) :=
  let* w := CONSTBUFFER_CreateWritableHandle 1 in let* p := CONSTBUFFER_GetWritableBuffer w in
  act (write_addr p [Some x]) ;;;
  let* s := CONSTBUFFER_SealWritableHandle w in let* before := contents s in
  act (write_addr p [Some y]) ;;;
  let* after := contents s in Ret (before, after).
End seal.
Theorem C18_sealed_contents_change_refuted : exists n, (fst <$> match exec n (write_after_seal 1 2) (init []) with Done r => Some r | _ => None end) = Some (Some [1%Z], Some [2%Z]).
Proof. exists 8. vm_compute. reflexivity. Qed.
Print Assumptions C18_sealed_contents_change_refuted.

(** What holds: for a thread that keeps no pointer into the buffer it seals (it gives up [Writable], in [uses]), the sealed handle holds the bytes written (see [gives] of Write: each write changes
    exactly the bytes it says), and reading through it always gives these ([C16_views_are_slices]). *)
Theorem C18_seal_partial oracle n c h x r b : reachable oracle n c -> answering c (SealWritableHandle h x) r b ->
  r = RHandle (Some h) /\ uses (SealWritableHandle h x) = [Writable h (bytes_block x)] /\ gives (SealWritableHandle h x) r = [Ref h x].
Proof. intros Hr H. destruct (all_proved oracle n c Hr) as (_&Ha&_&_). destruct (Ha _ _ _ H) as (f&Hf&Hans). destruct r; try done. simpl in Hans. by subst. Qed.
Print Assumptions C18_seal_partial.
Example ex_seal : exists c, reachable [] 1 c /\ exists b, answering c (Read (Some (1%positive, b1))) (RBytes (Some b1)) b.
Proof.
  set (l := [(0, Call (CreateWritableHandle 3)); (0, Go 2); (0, Answer); (0, Call (Write 1 [None; None; None] 0 b1)); (0, Go 1); (0, Answer); (0, Call (SealWritableHandle 1 b1)); (0, Answer);
             (0, Call (Read (Some (1%positive, b1)))); (0, Go 2)] : list (nat * turn op held)).
  apply (sched_reaches lib l).
  - repeat constructor; simpl; try done; lia.
  - assert (match sched lib l (init [], replicate 1 (Idle [])) with
            | Some c => match c.2 !! 0 with Some (Running o _ (Ret r) _) => o = Read (Some (1%positive, b1)) /\ r = RBytes (Some b1) | _ => False end
            | None => False
            end) as H by (vm_compute; auto).
    destruct (sched lib l _) as [c|]; [|exact H]. destruct (c.2 !! 0) as [[|o b [r|] hs]|] eqn:E; try destruct H. exists b, 0, hs. subst. exact E.
Qed.
