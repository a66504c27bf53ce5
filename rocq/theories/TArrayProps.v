(** Property theorems for inc/c_util/tarray_ll.h (C36). *)
From Verif Require Import Common Block CMem CArr TArrayModel TArraySpec.
From Verif Require TArrayProofs SepAll.
Local Open Scope Z_scope.

(** [simulates szT R]: R relates the states of a program that uses arrays of elements of szT bytes with the arrays it has. It holds when the program starts, without arrays;
    from related states, every allowed call completes (the growth loop terminates) without undefined behaviour in related states again, and behaves as
    [effect] says; or an allocation failed during the call (or the array would not fit in the address space), the call says so, and nothing has
    changed. Once every array has been freed, no memory is in use. *)
Definition simulates (szT : Z) (R : st obj -> arrays -> Prop) : Prop :=
  (forall oracle, R (St ∅ ∅ oracle 0) ∅) /\
  (forall s a o, R s a -> allowed a o -> exists r s' a', run szT o s = Done (r, s') /\ R s' a' /\
     (effect o a r a' \/ (((fails s < fails s')%nat \/ too_big szT o a) /\ failed o a r a'))) /\
  (forall s, R s ∅ -> mem s = ∅ /\ objs s = ∅).

(** C36: for every element size and every history of calls on any number of arrays, whichever allocations fail. *)
Theorem C36_tarray_grows_without_losing_data : forall szT, exists R, simulates szT R.
Proof.
  intros szT. exists TArrayProofs.reps. split; [intros; apply SepAll.reps_empty|]. split; [|apply SepAll.reps_no_leak].
  intros s a o R Hal. by apply TArrayProofs.step_ok.
Qed.
Print Assumptions C36_tarray_grows_without_losing_data.

(** C36, read off [effect] and [failed]: after TARRAY_ENSURE_CAPACITY the elements that were there are still there, at the same indices, and the capacity is not smaller;
    if the call succeeded it is at least [cap], and less than twice [cap] if it changed; a request above 2^31 that is not already met fails; other arrays are as before. *)
Theorem C36_ensure_capacity :
  forall a h t cap r a', a !! h = Some t -> effect (Ensure (Some h) cap) a r a' \/ failed (Ensure (Some h) cap) a r a' ->
    exists t' ok, r = RBool ok /\ a' !! h = Some t' /\ elems t `prefix_of` elems t' /\ has_cleanup t' = has_cleanup t /\
      (ok = true -> cap <= cap_of t') /\ (ok = false -> t' = t) /\ (t' = t \/ cap <= cap_of t' < 2 * cap) /\
      (2 ^ 31 < cap -> cap_of t < cap -> ok = false) /\ forall h', h' <> h -> a' !! h' = a !! h'.
Proof.
  intros a h t cap r a' Ht [H|H]; simpl in H.
  - destruct H as (t0&Ht0&H). assert (t0 = t) as -> by congruence. destruct (decide (cap <= cap_of t)).
    { destruct H as [-> ->]. exists t, true. split_and!; auto. intros; lia. }
    destruct (decide (2 ^ 31 < cap)).
    { destruct H as [-> ->]. exists t, false. split_and!; auto; try done. }
    destruct H as (new&Hnew&->&->). exists (TArr (elems t ++ replicate (Z.to_nat (new - cap_of t)) None) (has_cleanup t)), true.
    assert (cap_of (TArr (elems t ++ replicate (Z.to_nat (new - cap_of t)) None) (has_cleanup t)) = new) as E.
    { unfold cap_of in *. simpl. rewrite app_length, replicate_length. destruct Hnew as [_ ?]. lia. }
    rewrite E. destruct Hnew as [_ Hnew]. split_and!; auto; try (intros; lia); try done.
    + by rewrite lookup_insert.
    + simpl. by apply prefix_app_r.
    + intros h' Hne. by rewrite lookup_insert_ne.
  - destruct H as [-> ->]. exists t, false. split_and!; auto; done.
Qed.
Print Assumptions C36_ensure_capacity.

(** A program: an array of 3, written, grown to hold 7 (it gets 12) after one failing attempt, read back and freed with its cleanup function called. *)
Fixpoint run_all (p : list op) (s : st obj) : option (list res * st obj) :=
  match p with
  | [] => Some ([], s)
  | o :: p => match run 8 o s with Done (r, s') => match run_all p s' with Some (l, s'') => Some (r :: l, s'') | None => None end | _ => None end
  end.
Definition h1 : positive := 1%positive.
Example ex_grow :
  match run_all [Create 3 true; Set_ h1 2 42; Ensure (Some h1) 7; Ensure (Some h1) 7; Set_ h1 11 5; Ensure (Some h1) 2147483649; Get h1 2; Free (Some h1)] (St ∅ ∅ [true; true; false] 0) with
  | Some (l, s) => l = [RHandle (Some h1); RUnit; RBool false; RBool true; RUnit; RBool false; RVal 42;
                        RCleanup (Some [None; None; Some 42; None; None; None; None; None; None; None; None; Some 5])] /\ size (objs s) = 0%nat
  | None => False
  end.
Proof. vm_compute. repeat split. Qed.
(** TARRAY_CREATE: room for one element, and no cleanup function. *)
Example ex_default :
  match run_all [CreateDefault; Set_ h1 0 7; Ensure (Some h1) 2; Get h1 0; Free (Some h1)] (St ∅ ∅ [] 0) with
  | Some (l, s) => l = [RHandle (Some h1); RUnit; RBool true; RVal 7; RCleanup None] /\ size (objs s) = 0%nat
  | None => False
  end.
Proof. vm_compute. repeat split. Qed.
