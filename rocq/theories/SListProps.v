(** Property theorems for src/singlylinkedlist.c (C03). *)
From Verif Require Import Common SListModel SListSpec SListProofs.

(** C03: every history of calls, on any number of lists, with any pattern of allocation failures and any callbacks,
    returns what the same history returns on plain sequences, without undefined behaviour, and leaves memory holding
    exactly those sequences (in particular no node outside of a list stays allocated). *)
Theorem C03_slist_histories :
  forall {U} (os : list (slop U)) fuel m L rs L',
    (forall k l, L !! k = Some l -> length l + length os < fuel) -> length os < fuel ->
    holds m L -> spec_run L os = Some (rs, L') ->
    exists m', impl_run fuel os m = Done (rs, m') /\ holds m' L'.
Proof. exact @impl_run_ok. Qed.
Print Assumptions C03_slist_histories.

(** C03: the same from the empty memory; when every list created has been destroyed, nothing stays allocated. *)
Theorem C03_slist_no_leak :
  forall {U} (os : list (slop U)) fuel rs L',
    length os < fuel -> spec_run ∅ os = Some (rs, L') ->
    exists m', impl_run fuel os (SMem ∅ ∅) = Done (rs, m') /\ holds m' L' /\ (L' = ∅ -> m' = SMem ∅ ∅).
Proof. exact @run_from_empty. Qed.
Print Assumptions C03_slist_no_leak.

(** A history that uses every operation: two lists, an allocation failure, removal at both ends, a condition that stops early. *)
Definition rec_all (v : Z) (u : list Z) : bool * list Z := (true, u ++ [v]).
Definition is_ten (_ : positive) (v : Z) (u : list Z) : bool * list Z := ((v =? 10)%Z, u ++ [v]).
Definition drop30_until60 (v : Z) (u : list Z) : bool * bool * list Z := ((v =? 30)%Z, (v <? 60)%Z, u ++ [v]).
Definition ex_slops : list (slop (list Z)) :=
  [Create (Some 1); Create (Some 2); Add (Some 1) (Some 1) 10; Add (Some 2) (Some 1) 20; AddHead (Some 3) (Some 1) 30;
   Add None (Some 1) 40; Add (Some 4) (Some 1) 0; Add (Some 4) (Some 2) 50; GetHead (Some 1); GetNext (Some 3);
   GetNext (Some 2); GetValue (Some 4); Foreach (Some 1) (Some rec_all) [];
   Find (Some 1) (Some is_ten) [];
   Remove (Some 1) (Some 2); Add (Some 5) (Some 1) 60; Remove (Some 1) (Some 4);
   RemoveIf (Some 1) (Some drop30_until60) [];
   Foreach (Some 1) (Some rec_all) [];
   Destroy (Some 1); Destroy (Some 2); Create None; GetHead None]%positive.
Example ex_slist_hyps : fst <$> spec_run ∅ ex_slops = Some
  ([Ptr (Some 1); Ptr (Some 2); Ptr (Some 1); Ptr (Some 2); Ptr (Some 3); Ptr None; Ptr None; Ptr (Some 4);
    Ptr (Some 3); Ptr (Some 1); Ptr None; Val 50; CodeU true [30; 10; 20]%Z; PtrU (Some 1) [30; 10]%Z;
    Code true; Ptr (Some 5); Code false; CodeU true [30; 10; 60]%Z; CodeU true [10; 60]%Z; Unit_; Unit_; Ptr None; Ptr None]%positive)
  /\ (fun p => map_to_list p.2) <$> spec_run ∅ ex_slops = Some [].
Proof. split; vm_compute; reflexivity. Qed.
