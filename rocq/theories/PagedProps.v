(** Property theorems for inc/c_util/paged_sparse_array_ll.h (C37). *)
From Verif Require Import Common Block CMem PagedModel PagedSpec.
From Verif Require PagedProofs SepAll.
Local Open Scope Z_scope.

(** [simulates hdr szT R]: R relates the states of a program that uses paged sparse arrays with the arrays it has. It holds when the program starts, without arrays;
    from related states, every allowed call completes without undefined behaviour in related states again, and behaves as [effect] says; or an
    allocation failed during the call (or the object would not fit in the address space), the call says so, and nothing has changed.
    The elements allocated at any time have different addresses. The heap objects in use at any time are one per array and one per page that has an allocated element; so
    a page is freed with its last element, and nothing is left once every array has been disposed of. *)
Definition simulates (hdr szT : Z) (R : st obj -> arrays -> Prop) : Prop :=
  (forall oracle, R (St ∅ ∅ oracle 0) ∅) /\
  (forall s a o, R s a -> allowed szT a o -> exists r s' a', run hdr szT o s = Done (r, s') /\ R s' a' /\
     (effect o a r a' \/ (((fails s < fails s')%nat \/ too_big hdr szT o a) /\ failed o a r a'))) /\
  (forall s a p h t i c h' t' i' c', R s a -> cell_at a p h t i c -> cell_at a p h' t' i' c' -> h = h' /\ i = i') /\
  (forall s a, R s a -> size (objs s) = objects a) /\
  (forall s, R s ∅ -> mem s = ∅ /\ objs s = ∅).

(** C37: for every element size and every history of calls on any number of arrays, whichever allocations fail. Partial: the size in bytes of a page of each array is assumed
    to fit in 64 bits (in [allowed], for Create). Without that it is false: see below. *)
Theorem C37_partial_map_partial : forall hdr szT, 1 <= szT -> exists R, simulates hdr szT R.
Proof.
  intros hdr szT H1. exists (PagedProofs.reps szT). split; [intros; apply SepAll.reps_empty|]. split; [|split; [|split]].
  - intros s a o R Hal. by apply PagedProofs.step_ok.
  - intros s a p h t i c h' t' i' c' R (Ht&Hc&E) (Ht'&Hc'&E'). apply (SepAll.reps_pure _ _ _ _ R). eapply PagedProofs.all_inj; [exact Ht|exact Hc|exact Ht'|exact Hc'|congruence].
  - intros s a R. by apply (SepAll.reps_objs _ _ _ _ (PagedProofs.is_p_objs szT)).
  - apply SepAll.reps_no_leak.
Qed.
Print Assumptions C37_partial_map_partial.

(** An array whose struct would not fit in the address space is refused, and nothing changes. *)
Theorem C37_oversized_refused : forall hdr szT m p d a s, is_u64 m -> is_u64 p -> too_big hdr szT (Create m p d) a -> run hdr szT (Create m p d) s = Done (RHandle None, s).
Proof. intros hdr szT m p d a s Hm Hp Hb. by apply PagedProofs.create_too_big. Qed.
Print Assumptions C37_oversized_refused.
Example ex_oversized : is_u64 (2 ^ 63) /\ is_u64 1 /\ too_big 32 8 (Create (2 ^ 63) 1 false) ∅.
Proof. vm_compute. repeat split; intros; discriminate. Qed.

(** C37 in terms of one array, read off [effect] and [failed]. *)
(** ALLOCATE succeeds exactly on the indices in range that are not allocated, unless memory runs out; then exactly that index is allocated besides those before. *)
Theorem C37_allocate :
  forall a h t i r a', a !! h = Some t -> effect (Allocate (Some h) i true) a r a' \/ failed (Allocate (Some h) i true) a r a' ->
    exists t', a' !! h = Some t' /\ (forall j, j <> i -> cells t' !! j = cells t !! j) /\ (forall h', h' <> h -> a' !! h' = a !! h') /\
      match r with
      | RAllocate ALLOCATE_OK (Some p) => i < amax t /\ cells t !! i = None /\ exists c, cells t' !! i = Some c /\ addr c = p
      | RAllocate ALLOCATE_ALREADY_ALLOCATED None => i < amax t /\ is_Some (cells t !! i) /\ t' = t
      | RAllocate ALLOCATE_INVALID_ARGS None => amax t <= i /\ t' = t
      | RAllocate ALLOCATE_ERROR None => i < amax t /\ cells t !! i = None /\ t' = t
      | _ => False
      end.
Proof.
  intros a h t i r a' Ht [(t0&Ht0&H)|[(t0&Ht0&Hi&Hn) [-> ->]]]; assert (t0 = t) as -> by congruence.
  - destruct (decide (i < amax t)) as [Hi|Hi]; [destruct (cells t !! i) as [c|] eqn:E|].
    + destruct H as [-> ->]. exists t. split_and!; eauto.
    + destruct H as (p&v&->&->). exists (with_cells t (<[i := Cell p v]> (cells t))). rewrite lookup_insert. split_and!; try done.
      * intros j Hj. simpl. by rewrite lookup_insert_ne.
      * intros h' Hh. by rewrite lookup_insert_ne.
      * exists (Cell p v). simpl. by rewrite lookup_insert.
    + destruct H as [-> ->]. exists t. split_and!; try done. lia.
  - exists t. split_and!; auto.
Qed.
Print Assumptions C37_allocate.
(** item_dispose_func, if there is one, is called once for every allocated element when the array is disposed of, and for no other. *)
Theorem C37_dispose_once :
  forall a h t r a', a !! h = Some t -> (forall i, is_Some (cells t !! i) -> 0 <= i < amax t) -> adispose t = true -> effect (Dispose (Some h)) a r a' ->
    exists l, r = RDisposed l /\ l ≡ₚ (map_to_list (cells t)).*2.
Proof.
  intros a h t r a' Ht Hb Hd (t0&Ht0&->&_). assert (t0 = t) as -> by congruence. rewrite Hd. eexists. split; [done|].
  assert (forall (m : gmap Z cell) (l : list Z), NoDup l -> (forall i, is_Some (m !! i) -> i ∈ l) -> omap (fun i => m !! i) l ≡ₚ (map_to_list m).*2) as H.
  { intros m l. revert m. induction l as [|i l IH]; intros m Hl Hm.
    - assert (m = ∅) as ->; [|by rewrite map_to_list_empty]. apply map_eq. intros i. rewrite lookup_empty. destruct (m !! i) eqn:E; [|done]. specialize (Hm i ltac:(eauto)). set_solver.
    - apply NoDup_cons in Hl as [Hi Hl]. simpl. destruct (m !! i) as [c|] eqn:E.
      + assert (map_to_list m ≡ₚ (i, c) :: map_to_list (delete i m)) as ->. { rewrite <-map_to_list_insert by apply lookup_delete. by rewrite insert_delete. } rewrite fmap_cons. constructor. rewrite <-IH; [|done|].
        * assert (omap (fun j => m !! j) l = omap (fun j => delete i m !! j) l) as Ho; [|by rewrite <-Ho]. clear IH Hm Hl. induction l as [|j l IH]; [done|]. apply not_elem_of_cons in Hi as [Hij Hi]. simpl.
          rewrite lookup_delete_ne by done. destruct (m !! j); [f_equal|]; by apply IH.
        * intros j [c' Hc]. apply lookup_delete_Some in Hc as [Hne Hc]. specialize (Hm j ltac:(eauto)). set_solver.
      + apply IH; [done|]. intros j Hj. specialize (Hm j Hj). apply elem_of_cons in Hm as [->|]; [|done]. rewrite E in Hj. by destruct Hj. }
  apply H; [apply NoDup_seqZ|]. intros i Hi. apply elem_of_seqZ. specialize (Hb i Hi). lia.
Qed.
Print Assumptions C37_dispose_once.

(** FINDING: the size of a page in bytes wraps around 64 bits (line 232). A handle for such a page size can be created, and allocating an element then writes outside of the page.
    Shown for 8-byte elements, and header sizes as in the code. *)
Theorem C37_page_size_wraps_refuted :
  exists max page, is_u64 max /\ is_u64 page /\ exists h s, run 32 8 (Create max page false) (St ∅ ∅ [] 0) = Done (RHandle (Some h), s) /\ run 8 8 (Allocate (Some h) 0 true) s = Undef.
Proof.
  exists 1, 2270368501379637128. split; [done|]. split; [done|]. eexists _, _. split; [vm_compute; reflexivity|].
  apply PagedProofs.allocate_wraps with (d := PData 1 2270368501379637128 1 false [Some None]); [vm_compute; reflexivity|done|vm_compute; reflexivity|reflexivity|reflexivity| |reflexivity]. eexists. vm_compute. reflexivity.
Qed.
Print Assumptions C37_page_size_wraps_refuted.

(** A program: 20 elements in pages of 8; the first allocation fails; two elements in the same page and one in the next; one is released twice, found missing, and allocated again;
    the last of its page is released, which frees the page; the rest is disposed of with the array. *)
Fixpoint run_all (p : list op) (s : st obj) : option (list res * st obj) :=
  match p with
  | [] => Some ([], s)
  | o :: p => match run 8 4 o s with Done (r, s') => match run_all p s' with Some (l, s'') => Some (r :: l, s'') | None => None end | _ => None end
  end.
Definition h1 : positive := 1%positive.
Definition q1 : positive := Eval vm_compute in fresh ({[h1]} : gset positive).
Definition q2 : positive := Eval vm_compute in fresh ({[h1; q1]} : gset positive).
Example ex_pages :
  match run_all [Create 20 8 true; Allocate (Some h1) 3 true; Allocate (Some h1) 3 true; Allocate (Some h1) 7 true; Allocate (Some h1) 12 true; Allocate (Some h1) 20 true; Allocate (Some h1) 3 true;
                 Store (q1, 7) 42; Store (q2, 4) 5; Release (Some h1) 3; Release (Some h1) 3; Get (Some h1) 3 true; Get (Some h1) 7 true; Load (q1, 7)] (St ∅ ∅ [true; false] 0) with
  | Some (l, s) => l = [RHandle (Some h1); RAllocate ALLOCATE_ERROR None; RAllocate ALLOCATE_OK (Some (q1, 3)); RAllocate ALLOCATE_OK (Some (q1, 7)); RAllocate ALLOCATE_OK (Some (q2, 4));
                        RAllocate ALLOCATE_INVALID_ARGS None; RAllocate ALLOCATE_ALREADY_ALLOCATED None; RUnit; RUnit; RDisposed [Cell (q1, 3) None]; RDisposed []; RGet GET_NOT_ALLOCATED None;
                        RGet GET_OK (Some (q1, 7)); RVal 42] /\ size (objs s) = 3%nat /\
    match run_all [Release (Some h1) 7] s with
    | Some (l, s) => l = [RDisposed [Cell (q1, 7) (Some 42)]] /\ size (objs s) = 2%nat /\
      match run_all [Dispose (Some h1)] s with Some (l, s) => l = [RDisposed [Cell (q2, 4) (Some 5)]] /\ size (objs s) = 0%nat | None => False end
    | None => False
    end
  | None => False
  end.
Proof. vm_compute. repeat split. Qed.
