(** Properties C19, C20 and C21: constbuffer_array. *)
From Verif Require Import Common CbaModel Tally CbaSpec CbaFacts CbaProofs CbaCalls CbaEnd CbaSlice CbaBalance.
Local Open Scope Z_scope.

(** R relates what the user knows (abs) to the heap: it holds at the beginning, whatever the outcomes of the allocations will be, and every call the user may make
    ends, without undefined behaviour, with a result and in a state the specification allows. *)
Definition implements (R : abs -> heap -> Prop) : Prop :=
  (forall outcomes, R start (nothing outcomes)) /\
  (forall t s o, R t s -> allowed t o -> exists r s' t', run o s = Done (r, s') /\ effect (fails s < fails s')%nat t o r t' /\ R t' s').

(** C19: in every history of calls every function returns the sequence it denotes, or fails exactly in its documented cases and then changes nothing. *)
Theorem C19_sequence_operations : exists R, implements R.
Proof. exists R. split; [apply R_start|]. intros t s o HR Ho. by apply sim_all. Qed.
Print Assumptions C19_sequence_operations.

(** C20, for slices of at least one buffer: the slice is made exactly when it lies within the array and memory is available; its buffers hold, in order, the bytes
    between the two cuts; the state is again one the specification describes, so nothing is leaked (see C21). *)
Theorem C20_slice_partial : exists R, implements R /\ forall t s a l i n skip keep,
  R t s -> held t a l -> is_u32 i -> 1 <= n <= UINT32_MAX -> is_u32 skip -> is_u32 keep ->
  exists r s' t', constbuffer_array_create_from_buffer_offset_and_count (Some a) i n skip keep s = Done (r, s') /\ R t' s' /\
    let part := take (Z.to_nat n) (drop (Z.to_nat i) l) in
    let inside := i + n <= len l /\ slice_ok t part skip keep in
    match r with
    | None => t' = t /\ (~ inside \/ (fails s < fails s')%nat)
    | Some x => inside /\ ~ (fails s < fails s')%nat /\ exists l', held t' x l' /\ length l' = length part /\
        let whole := concat (map (bytes_of t) part) in
        concat (map (bytes_of t') l') =
          if decide (n = 1) then take (Z.to_nat keep) (drop (Z.to_nat skip) whole)
          else take (Z.to_nat (total t part - size_of t (List.last part 0%nat) + keep - skip)) (drop (Z.to_nat skip) whole)
    end.
Proof.
  exists R. split; [split; [apply R_start|]; intros t s o HR Ho; by apply sim_all|]. intros t s a l i n skip keep HR Hh Hi Hn Hskip Hkeep.
  exact (slice_bytes_ok t s a l i n skip keep HR Hh Hi Hn Hskip Hkeep).
Qed.
Print Assumptions C20_slice_partial.

(** C21, for histories without slices of no buffers: a buffer has the references the user holds, the ones in the user's memory, and one for each slot of an allocated array; an array has the references the
    user holds, the ones in the user's memory, and one for each view of it; when the user holds no array any more every array and every block they gave away is freed. *)
Theorem C21_references_partial : exists R, implements R /\
  (forall t s b, R t s -> refs s b = (mine t b + in_mem t b + slots t s b)%nat) /\
  (forall t s a n, R t s -> nodes s !! a = Some n ->
     nref n = (ours t a + tally (fun _ c => occ a (arrs_in c)) (blocks s) + tally (fun _ v => if decide (custom_free v = FreeView a) then 1 else 0) (nodes s))%nat /\ (0 < nref n)%nat) /\
  (forall t s, R t s -> (forall a, ours t a = 0%nat) -> (forall k c, mem t !! k = Some c -> arrs_in c = []) ->
     nodes s = ∅ /\ blocks s = mem t /\ forall b, refs s b = (mine t b + in_mem t b)%nat).
Proof.
  exists R. split; [split; [apply R_start|]; intros t s o HR Ho; by apply sim_all|]. split; [|split].
  - intros t s b HR. by apply balanced.
  - intros t s a n HR Ha. split; [|by destruct (r_node _ _ HR a n Ha) as (? & _ & _ & _ & ? & _)]. rewrite (r_arr _ _ HR a n Ha).
    assert (tally (fun _ v => view_of a v) (nodes s) = tally (fun _ v => if decide (custom_free v = FreeView a) then 1 else 0) (nodes s))%nat as ->; [|lia].
    apply tally_ext. intros x v _. unfold view_of. destruct (custom_free v) as [| |p]; try done. repeat case_decide; naive_solver.
  - intros t s HR Ho Hm. destruct (all_gone t s HR Ho Hm) as [Hn Hb]. split_and!; try done. intros b. rewrite (balanced t s b HR). unfold slots. rewrite Hn, tally_empty. lia.
Qed.
Print Assumptions C21_references_partial.

(** ** What is wrong with slices of no buffers. The function accepts buffer_count = 0. *)
Lemma bind_undef {S A B} (m : M S A) (k : A -> M S B) s : m s = Undef -> bind m k s = Undef.
Proof. intros H. unfold bind. by rewrite H. Qed.
Local Open Scope cm.
Fixpoint run_all (l : list op) : M heap unit := match l with [] => ret tt | o :: l => run o ;;; run_all l end.
Local Close Scope cm.
Lemma run_all_app l1 l2 s : run_all (l1 ++ l2) s = bind (run_all l1) (fun _ => run_all l2) s.
Proof. revert s. induction l1 as [|o l1 IH]; intros s; simpl; [done|]. unfold bind. destruct (run o s) as [[r s']| |]; [apply IH|done|done]. Qed.
(** Of an array with no buffers: it reads buffers[UINT32_MAX] (line 225). *)
Theorem C20_empty_array_refuted : run_all [Empty; Slice (Some 0%nat) 0 0 0 0] (nothing []) = Undef.
Proof.
  set (n := Node 1 0 NoFree (InNode 0 0) []). set (s := Heap (fun _ => 0%nat) (fun _ => []) (<[0%nat := n]> ∅) ∅ 0 1 0 [] 0).
  cbn [run_all]. rewrite (bind_done _ _ _ (RHandle (Some 0%nat)) s) by reflexivity. apply bind_undef. cbn [run]. apply bind_undef.
  unfold constbuffer_array_create_from_buffer_offset_and_count. rewrite (bind_done _ _ _ n s) by reflexivity. apply bind_undef.
  unfold read_buffer. rewrite (bind_done _ _ _ n s) by reflexivity. reflexivity.
Qed.
(** At the beginning of an array that has buffers: it reads buffers[UINT32_MAX] (line 281); at the end of it: it reads the buffer after the last one (line 267). *)
Theorem C20_no_buffers_refuted :
  run_all [Buffer [1; 2]; Create (Some [0%nat; 0%nat]) 2; Slice (Some 0%nat) 0 0 0 0] (nothing []) = Undef /\
  run_all [Buffer [1; 2]; Create (Some [0%nat; 0%nat]) 2; Slice (Some 0%nat) 2 0 0 0] (nothing []) = Undef.
Proof.
  split; [|vm_compute; reflexivity]. set (n := Node 1 2 NoFree (InNode 0 0) [Some 0%nat; Some 0%nat]).
  assert (exists s, run_all [Buffer [1; 2]; Create (Some [0%nat; 0%nat]) 2] (nothing []) = Done (tt, s) /\ nodes s !! 0%nat = Some n /\ refs s 0%nat = 3%nat /\ content s 0%nat = [1; 2] /\ nnext s = 1%nat /\ oracle s = [])
    as (s & E & Hn & Hr & Hc & Hx & Ho) by (eexists; split_and!; vm_compute; reflexivity).
  change (run_all ([Buffer [1; 2]; Create (Some [0%nat; 0%nat]) 2] ++ [Slice (Some 0%nat) 0 0 0 0]) (nothing []) = Undef). rewrite run_all_app, (bind_done _ _ _ _ _ E). clear E.
  apply bind_undef. cbn [run]. apply bind_undef. unfold constbuffer_array_create_from_buffer_offset_and_count.
  assert (forall s, nodes s !! 0%nat = Some n -> get_node 0 s = Done (n, s)) as Hg by (intros s' H; unfold get_node; by rewrite H).
  rewrite (bind_done _ _ _ _ _ (Hg _ Hn)). cbn [n nBuffers]. change ((0 >? 2) || (0 >? u32 (2 - 0))) with false. cbn iota. change (Z.to_nat (u32 (2 - 1))) with 1%nat.
  assert (forall i s, (i < 2)%nat -> nodes s !! 0%nat = Some n -> read_buffer 0 i s = Done (0%nat, s)) as Hrd.
  { intros i s' Hi H. unfold read_buffer. rewrite (bind_done _ _ _ _ _ (Hg _ H)). simpl. rewrite H. destruct i as [|[|]]; [done|done|lia]. }
  rewrite (bind_done _ _ _ _ _ (Hrd 1%nat s ltac:(lia) Hn)). rewrite (bind_done _ _ s [1; 2] s) by (unfold CONSTBUFFER_GetContent; by rewrite Hr, Hc). rewrite decide_False by lia.
  destruct s as [r c m k bn nn kn o f]. simpl in Hn, Hr, Hc, Hx, Ho. subst nn o.
  set (s1 := Heap r c (<[1%nat := Node 1 0 NoFree (InNode 1 0) []]> m) k bn 2 kn [] f). assert (nodes s1 !! 0%nat = Some n) as Hn1 by (simpl; by rewrite lookup_insert_ne).
  rewrite (bind_done _ _ _ (Some 1%nat) s1) by reflexivity. cbn iota. rewrite decide_False by lia. change (Z.to_nat 0) with 0%nat.
  rewrite (bind_done _ _ _ _ _ (Hrd 0%nat s1 ltac:(lia) Hn1)). rewrite (bind_done _ _ s1 [1; 2] s1) by (unfold CONSTBUFFER_GetContent; simpl; by rewrite Hr, Hc).
  set (s2 := with_refs (upd r 0%nat 4%nat) s1). rewrite (bind_done _ _ s1 (Some 0%nat) s2).
  2:{ unfold CONSTBUFFER_CreateFromOffsetAndSize. rewrite (bind_done _ _ s1 [1; 2] s1) by (unfold CONSTBUFFER_GetContent; simpl; by rewrite Hr, Hc).
      simpl. rewrite (bind_done _ _ s1 tt s2) by (unfold CONSTBUFFER_IncRef; simpl; by rewrite Hr). done. }
  cbn iota. apply bind_undef. change (u32 (0 + 0 - 1)) with UINT32_MAX. unfold read_buffer. rewrite (bind_done _ _ _ _ _ (Hg s2 Hn1)). cbn [n buffers read_place].
  replace (nodes s2 !! 0%nat) with (Some n) by done. cbn [n buffers_memory]. rewrite lookup_ge_None_2; [done|]. unfold UINT32_MAX. simpl length. lia.
Qed.
(** In the middle: the call succeeds, and two buffers keep a reference that nobody can release. *)
Theorem C20_no_buffers_leak_refuted :
  exists s, run_all [Buffer [1; 2]; Create (Some [0%nat; 0%nat]) 2; Slice (Some 0%nat) 1 0 0 1; DecArr (Some 1%nat); DecArr (Some 0%nat); Dec 0] (nothing []) = Done (tt, s) /\
    (map_to_list (nodes s), refs s 0%nat, refs s 1%nat) = ([], 1%nat, 1%nat).
Proof. eexists. split; [vm_compute; reflexivity|]. vm_compute. reflexivity. Qed.

(** ** Examples *)
Definition answers_of (l : list op) (outcomes : list bool) : option (list res) :=
  (fix go l s := match l with [] => Some [] | o :: l => match run o s with Done (r, s') => (r ::.) <$> go l s' | _ => None end end) l (nothing outcomes).
Example C19_example :
  answers_of [Buffer [1; 2; 3]; Buffer []; Buffer [4]; Create (Some [0; 1; 2]%nat) 3; AddFront (Some 0%nat) (Some 2%nat); RemoveBack (Some 1%nat) true; View (Some 0%nat) 1 2; NoEmpty (Some 0%nat);
              Concat (Some [Some 3%nat; Some 4%nat]) 2; Handles (Some 5%nat); Size (Some 5%nat) true; Get (Some 5%nat) 4; DecArr (Some 0%nat); Content (Some 3%nat) 1; Same (Some 3%nat) (Some 3%nat)] [] =
  Some [RHandle (Some 0%nat); RHandle (Some 1%nat); RHandle (Some 2%nat); RHandle (Some 0%nat); RHandle (Some 1%nat); RPair (Some (2, 2)%nat); RHandle (Some 3%nat); RHandle (Some 4%nat);
        RHandle (Some 5%nat); RList (Some [1; 2; 0; 2]%nat); RNum (Some 5); RHandle None; RUnit; RBytes (Some [4]); RBool true].
Proof. vm_compute. reflexivity. Qed.
Example C20_example :
  answers_of [Buffer [1; 2; 3]; Buffer []; Buffer [4; 5]; Create (Some [0; 1; 2]%nat) 3; Slice (Some 0%nat) 0 3 1 1; Content (Some 1%nat) 0; Content (Some 1%nat) 1; Content (Some 1%nat) 2;
              Slice (Some 0%nat) 0 3 4 1; Slice (Some 0%nat) 0 1 1 1; Content (Some 3%nat) 0] [true; true; true; true; true; true; true; true; true; true] =
  Some [RHandle (Some 0%nat); RHandle (Some 1%nat); RHandle (Some 2%nat); RHandle (Some 0%nat); RHandle (Some 1%nat); RBytes (Some [2; 3]); RBytes (Some []); RBytes (Some [4]);
        RHandle None; RHandle (Some 3%nat); RBytes (Some [2])].
Proof. vm_compute. reflexivity. Qed.
(** A view outlives the array it was made from; then everything goes. *)
Example C21_example :
  exists s s', run_all [Buffer [7]; Alloc [0%nat] 1; Move (Some 0%nat) 1; View (Some 0%nat) 0 1; DecArr (Some 0%nat)] (nothing []) = Done (tt, s) /\ (refs s 0%nat, size (nodes s), size (blocks s)) = (1, 2, 1)%nat /\
    run (DecArr (Some 1%nat)) s = Done (RUnit, s') /\ (refs s' 0%nat, size (nodes s'), size (blocks s')) = (0, 0, 0)%nat.
Proof. eexists _, _. split_and!; [vm_compute; reflexivity|vm_compute; reflexivity|vm_compute; reflexivity|vm_compute; reflexivity]. Qed.
(** The second allocation of the slice fails: nothing has changed for the user. *)
Example C21_failure_example :
  exists s, run_all [Buffer [1; 2; 3]; Create (Some [0; 0]%nat) 2; Slice (Some 0%nat) 0 2 1 1] (nothing [true; true; true; true; false]) = Done (tt, s) /\
    (refs s 0%nat, refs s 1%nat, size (nodes s), fails s) = (3, 0, 1, 1)%nat.
Proof. eexists. split; vm_compute; reflexivity. Qed.
