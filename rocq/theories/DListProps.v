(** Property theorems for src/doublylinkedlist.c (C01, C02). *)
From Verif Require Import Common DListModel DListSpec DListProofs.

(** C01: every history of list operations, on any number of lists living in the same heap, returns what the
    same history returns on plain sequences, never touches unmapped memory, and ends in a heap that holds
    exactly the resulting sequences. *)
Theorem C01_dlist_histories :
  forall os h L rs L',
    dspec_run (fun p => is_Some (h !! p)) L os rs L' -> holds h L ->
    exists h', exec_all os h = Done (rs, h') /\ holds h' L' /\ (forall p, is_Some (h !! p) <-> is_Some (h' !! p)).
Proof. exact exec_all_ok. Qed.
Print Assumptions C01_dlist_histories.

(** C01: one operation writes only cells of the lists it works on (and the entry it is given). *)
Theorem C01_dlist_frame :
  forall h L o r L', dspec (fun p => is_Some (h !! p)) L o r L' -> holds h L ->
    exists h', exec o h = Done (r, h') /\ holds h' L' /\
      (forall a, ~ touched L o a -> h' !! a = h !! a) /\
      (forall p, is_Some (h !! p) <-> is_Some (h' !! p)).
Proof. exact exec_ok. Qed.
Print Assumptions C01_dlist_frame.

(** C01: the forward walk of a held list is the sequence, the backward walk its reverse, both returning to the head. *)
Theorem C01_dlist_walks :
  forall h hd l, is_dlist h hd l ->
    walk (flink h) (length l + 1) hd = l ++ [hd] /\ walk (blink h) (length l + 1) hd = reverse l ++ [hd].
Proof. exact dlist_walks_ok. Qed.
Print Assumptions C01_dlist_walks.

(** A history exercising every operation, on two lists, from a heap with six uninitialised cells. *)
Definition ex_heap : gmap positive (positive * positive) :=
  list_to_map ((fun p => (p, (1%positive, 1%positive))) <$> [1; 2; 3; 4; 5; 6]%positive).
Definition ex_ops : list dop :=
  [Init 1; InsertTail 1 2; InsertTail 1 3; InsertHead 1 4; Init 5; InsertTail 5 6; DetachHead 5;
   AppendTail 1 6; RemoveEntry 1 3; RemoveHead 1; RemoveTail 1; IsEmpty 1; RemoveEntry 1 2; IsEmpty 1; RemoveHead 1]%positive.
Example ex_hyps : holds ex_heap ∅ /\
  dspec_run (fun p => is_Some (ex_heap !! p)) ∅ ex_ops
    [RUnit; RUnit; RUnit; RUnit; RUnit; RUnit; RBool true; RUnit; RBool false; RPtr 4; RPtr 6; RBool false;
     RBool true; RBool true; RPtr 1]%positive {[ 1%positive := [] ]}.
Proof.
  split.
  { split; intros *; rewrite lookup_empty; discriminate. }
  unfold ex_ops.
  assert (Hm : forall p, p ∈ [1; 2; 3; 4; 5; 6]%positive -> is_Some (ex_heap !! p)).
  { intros p Hp. repeat (apply elem_of_cons in Hp as [->|Hp]; [vm_compute; eauto|]). set_solver. }
  assert (HU : forall L : gmap positive (list positive), forall a,
     bool_decide (map_Forall (fun hd l => a ∉ hd :: l) L) = true -> unused L a).
  { intros L a Hb hd l HL. apply bool_decide_eq_true in Hb. by apply (Hb hd l). }
  eapply R_cons; [apply S_Init; [apply Hm; set_solver|apply HU; vm_compute; reflexivity]|].
  eapply R_cons; [eapply S_InsertTail; [reflexivity|apply Hm; set_solver|apply HU; vm_compute; reflexivity]|].
  eapply R_cons; [eapply S_InsertTail; [reflexivity|apply Hm; set_solver|apply HU; vm_compute; reflexivity]|].
  eapply R_cons; [eapply S_InsertHead; [reflexivity|apply Hm; set_solver|apply HU; vm_compute; reflexivity]|].
  eapply R_cons; [apply S_Init; [apply Hm; set_solver|apply HU; vm_compute; reflexivity]|].
  eapply R_cons; [eapply S_InsertTail; [reflexivity|apply Hm; set_solver|apply HU; vm_compute; reflexivity]|].
  eapply R_cons; [eapply (S_DetachHead _ _ 5%positive 6%positive []); reflexivity|].
  eapply R_cons; [eapply S_AppendTail; [reflexivity|reflexivity|discriminate]|].
  eapply R_cons; [eapply (S_RemoveEntry _ _ 1%positive [4;2;3;6]%positive 3%positive); [reflexivity|set_solver]|].
  eapply R_cons; [eapply (S_RemoveHead _ _ 1%positive 4%positive); reflexivity|].
  eapply R_cons; [eapply (S_RemoveTail _ _ 1%positive [2%positive] 6%positive); reflexivity|].
  eapply R_cons; [eapply (S_IsEmpty _ _ 1%positive [2%positive]); reflexivity|].
  eapply R_cons; [eapply (S_RemoveEntry _ _ 1%positive [2%positive] 2%positive); [reflexivity|set_solver]|].
  eapply R_cons; [eapply (S_IsEmpty _ _ 1%positive []); reflexivity|].
  eapply R_cons; [eapply S_RemoveHead_empty; reflexivity|].
  match goal with |- dspec_run _ ?L _ _ ?L' => replace L with L' by (apply (bool_decide_unpack _); vm_compute; exact I) end.
  apply R_nil.
Qed.

(** C02: DList_ForEach is the sequential loop over the entries of the list at the time of the call, for every action
    that does not relink entries not yet visited; more iterations than entries are never needed. *)
Theorem C02_foreach_is_sequence_loop :
  forall {U} (action : positive -> M (gmap positive (positive * positive) * U) (bool * bool)) hd l h u fuel,
    is_dlist h hd l -> length l < fuel ->
    (forall l1 e l2 s s', l = l1 ++ e :: l2 -> action e s = Done ((true, true), s') ->
       forall x, x ∈ l2 -> flink s'.1 x = flink s.1 x) ->
    DList_ForEach action fuel hd (h, u) = foreach_seq action l (h, u).
Proof. exact @ForEach_stable. Qed.
Print Assumptions C02_foreach_is_sequence_loop.

(** C02: an action that unlinks and frees the entry it is given (any subset of the entries) still sees every
    entry exactly once, in order, and the list ends up holding exactly the entries not removed. *)
Theorem C02_foreach_tolerates_removal :
  forall (sel : positive -> bool) hd l h fuel,
    is_dlist h hd l -> length l < fuel ->
    exists h', DList_ForEach (unlink_and_free sel) fuel hd (h, []) = Done (true, (h', l)) /\
       is_dlist h' hd (filter (fun e => sel e = false) l) /\
       (forall e, e ∈ l -> sel e = true -> h' !! e = None).
Proof. exact ForEach_unlink_ok. Qed.
Print Assumptions C02_foreach_tolerates_removal.

(** C02: NULL arguments fail without calling anything. *)
Theorem C02_foreach_null_args :
  forall {U} (a : option (positive -> M (gmap positive (positive * positive) * U) (bool * bool))) l fuel s,
    l = None \/ a = None -> DList_ForEach_entry l a fuel s = Done (false, s).
Proof. intros U a l fuel s [-> | ->]; [reflexivity | destruct l; reflexivity]. Qed.
Print Assumptions C02_foreach_null_args.

Definition ex_list_heap : gmap positive (positive * positive) :=
  {[ 1 := (2, 4); 2 := (3, 1); 3 := (4, 2); 4 := (1, 3) ]}%positive.
Example ex_foreach_hyps : is_dlist ex_list_heap 1%positive [2; 3; 4]%positive.
Proof. split; [apply (bool_decide_unpack _); vm_compute; exact I | vm_compute; tauto]. Qed.
(** A recording action that stops at entry 3 and an action that fails at entry 3. *)
Example ex_foreach_stop :
  DList_ForEach (fun e '(h, v) => Done ((true, bool_decide (e <> 3%positive)), (h, v ++ [e]))) 10 1%positive
    (ex_list_heap, []) = Done (true, (ex_list_heap, [2; 3]%positive)).
Proof. vm_compute. reflexivity. Qed.
Example ex_foreach_fail :
  DList_ForEach (fun e '(h, v) => Done ((bool_decide (e <> 3%positive), true), (h, v ++ [e]))) 10 1%positive
    (ex_list_heap, []) = Done (false, (ex_list_heap, [2; 3]%positive)).
Proof. vm_compute. reflexivity. Qed.
