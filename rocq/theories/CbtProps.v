(** Property theorems for src/constbuffer_thandle.c (C46; and C16, C17, C18 for CONSTBUFFER_THANDLE). *)
From Verif Require Import Common Block CMem Prog MemDataModel MemDataSpec Sched ConstBufModel ConstBufSpec CbtModel CbtSpec.
From Verif Require CslPool Rc MemDataProofs ConstBufProofs ConstBufProofs2 ConstBufProofs3 CbtProofs.

(** A program starts with no memory in use; whether each allocation succeeds is up to the oracle. *)
Definition init (oracle : list bool) : cst := St ∅ ∅ oracle 0.
(** What n threads that call CONSTBUFFER_THANDLE functions in any way the interface allows ([clib]), on references and memory they hold, can arrive at, whichever atomic step each takes in turn. *)
Definition reachable (oracle : list bool) (n : nat) (c : cst * list (thread cst cop res held)) : Prop := pool_steps clib (init oracle, replicate n (Idle [])) c.
Definition idle_holding (t : thread cst cop res held) (hs : list held) : Prop := t = Idle hs.
(** In c, a call o is about to answer r; it was made in the state b. *)
Definition answering (c : cst * list (thread cst cop res held)) (o : cop) (r : res) (b : cst) : Prop := exists i rest, c.2 !! i = Some (Running o b (Ret r) rest).

Lemma all_proved oracle n c : reachable oracle n c ->
  ~ crashes c /\
  (forall o r b, answering c o r b -> exists f, f <= fails c.1 /\ canswers o r (fails b) f) /\
  (forall i, i < n -> finishes clib i c) /\
  (forall hss, Forall2 idle_holding c.2 hss -> accounted (concat hss) c.1).
Proof.
  intros Hr. destruct (CslPool.pool_correct (Rc.RInv ConstBufProofs.repr ConstBufProofs.holds) clib ConstBufProofs.own canswers CbtProofs.cspec (init oracle) n c) as (H1&H2&H3&H4).
  - apply Rc.RInv_init, ConstBufProofs.repr_excl.
  - exact Hr.
  - split; [exact H1|]. split; [intros o r b (i&rest&Hi); exact (H2 _ _ _ _ _ Hi)|]. split; [exact H3|].
    intros hss Hs. destruct (H4 hss Hs) as (r&sh&Ha&Hb&Hc&Hd&He). exact (ConstBufProofs3.idle_accounted _ _ _ _ Ha Hb Hc Hd He).
Qed.

(** C46: whatever the threads do (any tree of views, any allocations that fail), no step accesses or frees memory that is not there, so nothing is freed twice; every call answers after finitely many steps of
    its own thread; and between calls there are exactly the buffers that are held or that a view needs, and the memory that is held or that such a buffer owns (memory that was moved, or that comes with a
    custom free function, which is called on its context): nothing, if nothing is held. Reading through a reference gives its contents. *)
Theorem C46_memory_freed_once_after_last_reference oracle n c : reachable oracle n c ->
  ~ crashes c /\ (forall i, i < n -> finishes clib i c) /\ (forall hss, Forall2 idle_holding c.2 hss -> accounted (concat hss) c.1) /\
  (forall h x r b, answering c (Common (Read (Some (h, x)))) r b -> r = RBytes (Some x)).
Proof.
  intros Hr. destruct (all_proved oracle n c Hr) as (?&Ha&?&?). split_and!; [done..|].
  intros h x r b H'. destruct (Ha _ _ _ H') as (f&Hf&Hans). destruct r; try done. simpl in Hans. by subst.
Qed.
Print Assumptions C46_memory_freed_once_after_last_reference.

(** C46, the calls themselves: each answers as [canswers] says and leaves the caller with what [cgives] says. Written out for those that make references. *)
Theorem C46_creating_calls oracle n c b : reachable oracle n c ->
  (forall src sz r, answering c (Common (Create src sz)) (RHandle r) b -> (src = None /\ sz <> 0%Z -> r = None) /\ (~ (src = None /\ sz <> 0%Z) -> r = None -> fails b < fails c.1)) /\
  (forall p l sz r, answering c (Common (CreateWithMoveMemory (Some (p, l)) sz)) (RHandle r) b -> r = None -> fails b < fails c.1 /\ cgives (Common (CreateWithMoveMemory (Some (p, l)) sz)) (RHandle r) = [Mem p l]) /\
  (forall p l at_ sz func r, answering c (Common (CreateWithCustomFree p l at_ sz func)) (RHandle r) b -> r = None ->
     ((at_ = None /\ sz <> 0%Z) \/ func = false \/ fails b < fails c.1) /\ cgives (Common (CreateWithCustomFree p l at_ sz func)) (RHandle r) = [Mem p l]) /\
  (forall h x offset sz r, answering c (Common (CreateFromOffsetAndSize (Some (h, x)) offset sz)) (RHandle r) b ->
     ((offset + sz > size_of x)%Z -> r = None) /\ ((offset + sz <= size_of x)%Z -> r = None -> fails b < fails c.1) /\
     cgives (Common (CreateFromOffsetAndSize (Some (h, x)) offset sz)) (RHandle r) = Ref h x :: match r with Some h' => [Ref h' (slice (Z.to_nat offset) (Z.to_nat sz) x)] | None => [] end) /\
  (forall h x offset sz r, answering c (Common (CreateFromOffsetAndSizeWithCopy (Some (h, x)) offset sz)) (RHandle r) b ->
     ((offset + sz > size_of x)%Z -> r = None) /\ ((offset + sz <= size_of x)%Z -> r = None -> fails b < fails c.1)).
Proof.
  intros Hr. destruct (all_proved oracle n c Hr) as (_&Ha&_&_). split_and!.
  - intros src sz r H. destruct (Ha _ _ _ H) as (f&Hf&Hans). cbn [canswers answers] in Hans. destruct (decide _) as [Hd|Hd] in Hans; [done|]. split; [done|]. intros _ Hn. specialize (Hans Hn). lia.
  - intros p l sz r H ->. destruct (Ha _ _ _ H) as (f&Hf&Hans). cbn [canswers answers] in Hans. destruct (decide _) as [Hd|Hd] in Hans; [by destruct Hd|]. split; [specialize (Hans eq_refl); lia|done].
  - intros p l at_ sz func r H ->. destruct (Ha _ _ _ H) as (f&Hf&Hans). cbn [canswers answers] in Hans. split; [|by destruct at_]. destruct (decide _) as [Hd|Hd] in Hans; [tauto|]. specialize (Hans eq_refl). right. right. lia.
  - intros h x offset sz r H. destruct (Ha _ _ _ H) as (f&Hf&Hans). cbn [canswers answers] in Hans. destruct (decide (offset + sz > size_of x)%Z) as [Hd|Hd].
    + split; [done|]. split; [lia|]. by destruct r.
    + split; [lia|]. split; [|by destruct r]. intros _ ->. destruct (decide _) in Hans; [done|]. specialize (Hans eq_refl). lia.
  - intros h x offset sz r H. destruct (Ha _ _ _ H) as (f&Hf&Hans). cbn [canswers answers] in Hans. destruct (decide (offset + sz > size_of x)%Z) as [Hd|Hd]; [split; [done|lia]|]. split; [lia|]. intros _ ->. specialize (Hans eq_refl). lia.
Qed.
Print Assumptions C46_creating_calls.

(** C16 for CONSTBUFFER_THANDLE, as [C16_views_are_slices] says it for CONSTBUFFER. *)
Theorem C16_thandle_views_are_slices oracle n c b : reachable oracle n c ->
  (forall h x offset sz r, answering c (Common (CreateFromOffsetAndSize (Some (h, x)) offset sz)) (RHandle r) b ->
     (offset + sz > size_of x -> r = None)%Z /\ ((offset + sz <= size_of x)%Z -> r = None -> fails b < fails c.1) /\
     cgives (Common (CreateFromOffsetAndSize (Some (h, x)) offset sz)) (RHandle r) = Ref h x :: match r with Some h' => [Ref h' (slice (Z.to_nat offset) (Z.to_nat sz) x)] | None => [] end) /\
  (forall h x r, answering c (Common (Read (Some (h, x)))) r b -> r = RBytes (Some x)) /\
  (forall h x h' y r, answering c (Common (ContainSame (Some (h, x)) (Some (h', y)))) r b -> exists e, r = RBool e /\ (e = true <-> x = y)) /\
  (forall h x r, answering c (Common (ContainSame (Some (h, x)) None)) r b \/ answering c (Common (ContainSame None (Some (h, x)))) r b -> r = RBool false) /\
  (forall r, answering c (Common (ContainSame None None)) r b -> r = RBool true) /\
  (forall x o1 n1 o2 n2, o2 + n2 <= n1 -> slice o2 n2 (slice o1 n1 x) = slice (o1 + o2) n2 x).
Proof.
  intros Hr. destruct (all_proved oracle n c Hr) as (_&Ha&_&_). split_and!.
  - intros h x offset sz r H. destruct (Ha _ _ _ H) as (f&Hf&Hans). cbn [canswers answers] in Hans. destruct (decide (offset + sz > size_of x)%Z) as [Hd|Hd].
    + split; [done|]. split; [lia|]. by destruct r.
    + split; [lia|]. split; [|by destruct r]. intros _ ->. destruct (decide _) in Hans; [done|]. specialize (Hans eq_refl). lia.
  - intros h x r H. destruct (Ha _ _ _ H) as (f&Hf&Hans). destruct r; try done. simpl in Hans. by subst.
  - intros h x h' y r H. destruct (Ha _ _ _ H) as (f&Hf&Hans). destruct r; try done. eexists. split; [done|]. simpl in Hans. subst. rewrite bool_decide_eq_true. split; congruence.
  - intros h x r H. destruct H as [H|H]; destruct (Ha _ _ _ H) as (f&Hf&Hans); destruct r; try done; simpl in Hans; by subst.
  - intros r H. destruct (Ha _ _ _ H) as (f&Hf&Hans). destruct r; try done. simpl in Hans. by subst.
  - intros x o1 n1 o2 n2 Hl. unfold slice. rewrite skipn_firstn_comm, take_take, drop_drop. f_equal. lia.
Qed.
Print Assumptions C16_thandle_views_are_slices.
(** Not vacuous: the views and the read of [ex_view_outlives] below are such calls. *)

(** C17 for CONSTBUFFER_THANDLE: the size announced, the serialised bytes, and what is read back ([parsed] is of the serialised bytes, and of those only: the last clauses of [C17_serialization_round_trip]). The handle that was in *destination is released exactly when from_buffer succeeds. *)
Theorem C17_thandle_serialization oracle n c b : reachable oracle n c ->
  (forall h x r, answering c (Common (GetSerializationSize (Some (h, x)))) r b -> r = RNum (if decide (5 + size_of x <= UINT32_MAX) then size_of (serialized x) else 0)%Z) /\
  (forall h x r, answering c (Common (ToBuffer (Some (h, x)) true)) r b ->
     (exists p, (5 + size_of x <= UINT32_MAX)%Z /\ r = RToBuffer (Some (p, size_of (serialized x))) /\ cgives (Common (ToBuffer (Some (h, x)) true)) r = [Ref h x; Mem p (serialized x)]) \/
     (r = RToBuffer None /\ ((5 + size_of x > UINT32_MAX)%Z \/ fails b < fails c.1))) /\
  (forall h x p l m r, answering c (Common (ToFixedSizeBuffer (Some (h, x)) (Some (p, l)) m true)) r b ->
     let o := Common (ToFixedSizeBuffer (Some (h, x)) (Some (p, l)) m true) in
     if decide (5 + size_of x > UINT32_MAX)%Z then r = RToFixed TO_FIXED_ERROR None /\ cgives o r = [Ref h x; Mem p l]
     else if decide (size_of (serialized x) > m)%Z then r = RToFixed TO_FIXED_INSUFFICIENT_BUFFER (Some (size_of (serialized x))) /\ cgives o r = [Ref h x; Mem p l]
     else r = RToFixed TO_FIXED_OK (Some (size_of (serialized x))) /\ cgives o r = [Ref h x; Mem p (serialized x ++ drop (5 + length x) l)]) /\
  (forall p l m old r, m <> 0%Z -> answering c (FromBufferTo (Some (p, l)) m true (Some old)) r b -> let o := FromBufferTo (Some (p, l)) m true (Some old) in
     (exists h x, parsed (take (Z.to_nat m) l) x /\ r = RFrom FROM_OK (Some (h, size_of (serialized x))) /\ cgives o r = [Mem p l; Ref h x]) \/
     (r = RFrom FROM_INVALID_DATA None /\ (forall x, ~ parsed (take (Z.to_nat m) l) x) /\ cgives o r = Mem p l :: hold_ref old) \/
     (r = RFrom FROM_ERROR None /\ fails b < fails c.1 /\ cgives o r = Mem p l :: hold_ref old)).
Proof.
  intros Hr. destruct (all_proved oracle n c Hr) as (_&Ha&_&_). split_and!.
  - intros h x r H. destruct (Ha _ _ _ H) as (f&Hf&Hans). destruct r; try done. cbn [canswers answers] in Hans. rewrite ConstBufProofs2.size_serialized. by subst.
  - intros h x r H. destruct (Ha _ _ _ H) as (f&Hf&Hans). destruct r as [| | | | |r| |]; try done. cbn [canswers answers] in Hans. destruct (decide _) as [Hd|Hd] in Hans.
    + destruct r as [[p m]|]; [left; exists p; subst m; done|right]. split; [done|]. right. lia.
    + subst r. right. split; [done|]. left. lia.
  - intros h x p l m r H. destruct (Ha _ _ _ H) as (f&Hf&Hans). destruct r as [| | | | | |r k|]; try done. cbn [canswers answers] in Hans. cbn zeta. destruct (decide _) as [Hd|Hd] in Hans.
    + rewrite decide_False by lia. destruct Hans as [-> ->]. destruct (decide (size_of (serialized x) <= m)%Z) as [He|He].
      * rewrite decide_False by lia. done.
      * rewrite decide_True by lia. done.
    + rewrite decide_True by lia. destruct Hans as [-> ->]. done.
  - intros p l m old r Hm H. destruct (Ha _ _ _ H) as (f&Hf&Hans). destruct r as [| | | | | | |r d]; try done. cbn [canswers] in Hans. cbn zeta. rewrite decide_False in Hans by done. destruct r, d as [[h k]|]; try done.
    + left. destruct Hans as (x&Hp&->). exists h, x. split; [done|]. split; [done|]. cbn [cgives]. do 3 f_equal. destruct Hp as (rest&E&_).
      rewrite ConstBufProofs2.size_serialized. unfold size_of. replace (Z.to_nat (5 + Z.of_nat (length x)) - 5) with (length x) by lia.
      assert (l = serialized x ++ rest ++ drop (Z.to_nat m) l) as El. { rewrite (assoc_L (++)), <-E. by rewrite take_drop. }
      rewrite El. unfold slice, serialized. pose proof (MemDataProofs.be_bytes_length 4 (size_of x)) as Hl. destruct (be_bytes 4 (size_of x)) as [|e0 [|e1 [|e2 [|e3 [|]]]]]; try done. cbn [app drop]. by rewrite drop_0, take_app.
    + right. right. split; [done|]. split; [lia|done].
    + right. left. done.
Qed.
Print Assumptions C17_thandle_serialization.

(** C18 holds of CONSTBUFFER_THANDLE: sealing copies. The caller keeps the writable buffer and the pointer into it, may write to it again, and the sealed handle still has the bytes at the time of the call. *)
Theorem C18_thandle_seal_copies oracle n c b : reachable oracle n c ->
  (forall h x r, answering c (Seal (Some (h, x))) r b -> exists h', r = RHandle h' /\ (h' = None -> fails b < fails c.1) /\
     cgives (Seal (Some (h, x))) r = Writable h (bytes_block x) :: match h' with Some h' => [Ref h' x] | None => [] end) /\
  (forall h w off l r, answering c (Common (Write h w off l)) r b -> cgives (Common (Write h w off l)) r = [Writable h (take off w ++ bytes_block l ++ drop (off + length l) w)]) /\
  (forall r, answering c (Seal None) r b -> r = RHandle None) /\
  (forall w r, answering c (WritableSize w) r b -> r = RNum (match w with None => 0 | Some (_, bl) => Z.of_nat (length bl) end)) /\
  (forall w r, answering c (WritableBuffer w) r b -> exists e, r = RBool e /\ (e = true <-> w <> None)).
Proof.
  intros Hr. destruct (all_proved oracle n c Hr) as (_&Ha&_&_). split_and!.
  - intros h x r H. destruct (Ha _ _ _ H) as (f&Hf&Hans). destruct r as [|r| | | | | |]; try done. exists r. split; [done|]. split; [|by destruct r]. intros ->. cbn in Hans. specialize (Hans eq_refl). lia.
  - done.
  - intros r H. destruct (Ha _ _ _ H) as (f&Hf&Hans). destruct r; try done. simpl in Hans. by subst.
  - intros w r H. destruct (Ha _ _ _ H) as (f&Hf&Hans). destruct w as [[??]|], r; try done; simpl in Hans; by subst.
  - intros w r H. destruct (Ha _ _ _ H) as (f&Hf&Hans). destruct r; try done. cbn [canswers] in Hans. subst. eexists. split; [done|]. by rewrite bool_decide_eq_true.
Qed.
Print Assumptions C18_thandle_seal_copies.

(** A run of two threads: thread 0 moves [7 8 9] into a buffer, makes a view of the last two bytes and a view of that view, hands the inner view to thread 1, and drops the others while thread 1 reads;
    the memory goes when thread 1 drops its view. *)
Local Instance held_eq : EqDecision held.
Proof. solve_decision. Defined.
Definition b1 : bytes := [7; 8; 9]%Z.
Definition v1 : bytes := [8; 9]%Z.
Definition v2 : bytes := [9]%Z.
Definition schedule1 : list (nat * turn cop held) :=
  [(0, Call (Common (Malloc b1))); (0, Go 2); (0, Answer); (0, Call (Common (CreateWithMoveMemory (Some (1%positive, b1)) 3))); (0, Go 1); (0, Answer);
   (0, Call (Common (CreateFromOffsetAndSize (Some (1%positive, b1)) 1 2))); (0, Go 3); (0, Answer); (0, Call (Common (CreateFromOffsetAndSize (Some (2%positive, v1)) 1 1))); (0, Go 3); (0, Answer); (0, Hand 1 (Ref 3 v2));
   (0, Call (Common (DecRef (Some (1%positive, b1))))); (1, Call (Common (Read (Some (3%positive, v2))))); (1, Go 1); (0, Go 1); (0, Answer); (0, Call (Common (DecRef (Some (2%positive, v1))))); (0, Go 1); (1, Go 1)].
Definition schedule2 : list (nat * turn cop held) := [(0, Answer); (1, Answer); (1, Call (Common (DecRef (Some (3%positive, v2))))); (1, Go 10); (1, Answer)].
Example ex_view_outlives : exists c, reachable [] 2 c /\
  (exists b, answering c (Common (Read (Some (3%positive, v2)))) (RBytes (Some v2)) b) /\ map_to_list (mem c.1) = [(1%positive, bytes_block b1)] /\ length (map_to_list (objs c.1)) = 3.
Proof.
  apply (sched_reaches clib schedule1).
  - repeat constructor; simpl; try done; lia.
  - assert (match sched clib schedule1 (init [], replicate 2 (Idle [])) with
            | Some c => match c.2 !! 1 with Some (Running o _ (Ret r) _) => o = Common (Read (Some (3%positive, v2))) /\ r = RBytes (Some v2) | _ => False end /\
                        map_to_list (mem c.1) = [(1%positive, bytes_block b1)] /\ length (map_to_list (objs c.1)) = 3
            | None => False
            end) as H by (vm_compute; auto).
    destruct (sched clib schedule1 _) as [c|]; [|exact H]. destruct H as [H1 H2]. split; [|exact H2]. destruct (c.2 !! 1) as [[|o b [r|] hs]|] eqn:E; try destruct H1. exists b, 1, hs. subst. exact E.
Qed.
Example ex_all_dropped : exists c, reachable [] 2 c /\ Forall2 idle_holding c.2 [[]; []] /\ map_to_list (objs c.1) = [] /\ map_to_list (mem c.1) = [].
Proof.
  apply (sched_reaches clib (schedule1 ++ schedule2)).
  - repeat constructor; simpl; try done; lia.
  - vm_compute. split; [|split; reflexivity]. repeat constructor.
Qed.
(** A buffer is serialised and read back into a variable that holds another buffer, which goes. *)
Definition s1 : bytes := serialized b1.
Definition schedule3 : list (nat * turn cop held) :=
  [(0, Call (Common (Create (Some b1) 3))); (0, Go 3); (0, Answer); (0, Call (Common (ToBuffer (Some (1%positive, b1)) true))); (0, Go 6); (0, Answer);
   (0, Call (FromBufferTo (Some (1%positive, s1)) 8 true (Some (Some (1%positive, b1))))); (0, Go 10)].
Example ex_round_trip : exists c, reachable [] 1 c /\ (exists b h, answering c (FromBufferTo (Some (1%positive, [1; 0; 0; 0; 3; 7; 8; 9]%Z)) 8 true (Some (Some (1%positive, b1)))) (RFrom FROM_OK (Some (h, 8%Z))) b) /\
  map_to_list (objs c.1) = [(2%positive, CBuf (AStorage 2 0) 3 (Copied (bytes_block b1)) 1)].
Proof.
  apply (sched_reaches clib schedule3).
  - repeat constructor; simpl; try done; lia.
  - assert (match sched clib schedule3 (init [], replicate 1 (Idle [])) with
            | Some c => match c.2 !! 0 with Some (Running o _ (Ret r) _) => o = FromBufferTo (Some (1%positive, [1; 0; 0; 0; 3; 7; 8; 9]%Z)) 8 true (Some (Some (1%positive, b1))) /\ r = RFrom FROM_OK (Some (2%positive, 8%Z)) | _ => False end /\
                        map_to_list (objs c.1) = [(2%positive, CBuf (AStorage 2 0) 3 (Copied (bytes_block b1)) 1)]
            | None => False
            end) as H by (vm_compute; auto).
    destruct (sched clib schedule3 _) as [c|]; [|exact H]. destruct H as [H H2]. split; [|exact H2]. destruct (c.2 !! 0) as [[|o b [r|] hs]|] eqn:E; try destruct H. exists b, 2%positive, 0, hs. subst. exact E.
Qed.
(** A buffer is written, sealed, written again: the sealed handle has the first bytes. *)
Example ex_seal : exists c, reachable [] 1 c /\ exists b, answering c (Common (Read (Some (2%positive, b1)))) (RBytes (Some b1)) b.
Proof.
  set (l := [(0, Call (Common (CreateWritableHandle 3))); (0, Go 4); (0, Answer); (0, Call (Common (Write 1 [None; None; None] 0 b1))); (0, Go 1); (0, Answer); (0, Call (Seal (Some (1%positive, b1)))); (0, Go 6); (0, Answer);
             (0, Call (Common (Write 1 (bytes_block b1) 0 v1))); (0, Go 1); (0, Answer); (0, Call (Common (Read (Some (2%positive, b1))))); (0, Go 2)] : list (nat * turn cop held)).
  apply (sched_reaches clib l).
  - repeat constructor; simpl; try done; lia.
  - assert (match sched clib l (init [], replicate 1 (Idle [])) with
            | Some c => match c.2 !! 0 with Some (Running o _ (Ret r) _) => o = Common (Read (Some (2%positive, b1))) /\ r = RBytes (Some b1) | _ => False end
            | None => False
            end) as H by (vm_compute; auto).
    destruct (sched clib l _) as [c|]; [|exact H]. destruct (c.2 !! 0) as [[|o b [r|] hs]|] eqn:E; try destruct H. exists b, 0, hs. subst. exact E.
Qed.
