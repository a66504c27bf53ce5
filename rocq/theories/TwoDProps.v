(** Property theorems for inc/c_util/two_d_array_ll.h (C38). *)
From Verif Require Import Common Block CMem CArr TwoDModel TwoDSpec.
From Verif Require TwoDProofs SepAll.
Local Open Scope Z_scope.

(** [simulates hdr szT R]: R relates the states of a program that uses two-dimensional arrays with the arrays it has. It holds when the program starts, without arrays;
    from related states, every allowed call completes without undefined behaviour in related states again, and behaves as [effect] says; or an
    allocation failed during the call (or the object would not fit in the address space), the call says so, and nothing has changed. Once every
    array has been freed, with or without its rows having been freed before, no memory is in use. *)
Definition simulates (hdr szT : Z) (R : st obj -> arrays -> Prop) : Prop :=
  (forall oracle, R (St ∅ ∅ oracle 0) ∅) /\
  (forall s a o, R s a -> allowed a o -> exists r s' a', run hdr szT o s = Done (r, s') /\ R s' a' /\
     (effect o a r a' \/ (((fails s < fails s')%nat \/ too_big hdr szT o a) /\ failed o a r a'))) /\
  (forall s, R s ∅ -> mem s = ∅ /\ objs s = ∅).

(** C38: for every element size and every history of calls on any number of arrays, whichever allocations fail. *)
Theorem C38_rows_are_a_partial_map : forall hdr szT, exists R, simulates hdr szT R.
Proof.
  intros hdr szT. exists TwoDProofs.reps. split; [intros; apply SepAll.reps_empty|]. split; [|apply SepAll.reps_no_leak].
  intros s a o R Hal. by apply TwoDProofs.step_ok.
Qed.
Print Assumptions C38_rows_are_a_partial_map.

(** The row an operation is about. *)
Definition row_of (o : op) : option (positive * Z) :=
  match o with
  | AllocRow (Some h) i | FreeRow (Some h) i | GetRow (Some h) i _ | ReadCell h i _ | WriteCell h i _ _ => Some (h, i)
  | _ => None
  end.
(** C38, read off [effect] and [failed]: an operation on one row of one array leaves every other row of that array, its sizes, and every other array as they were. *)
Theorem C38_rows_are_independent :
  forall o h i a t r a', row_of o = Some (h, i) -> a !! h = Some t -> effect o a r a' \/ failed o a r a' ->
    exists t', a' !! h = Some t' /\ arows t' = arows t /\ acols t' = acols t /\ (forall j, j <> i -> content t' !! j = content t !! j) /\
      forall h', h' <> h -> a' !! h' = a !! h'.
Proof.
  assert (forall (a a' : arrays) h t i row, a' = <[h := set_row t i row]> a -> exists t', a' !! h = Some t' /\ arows t' = arows t /\ acols t' = acols t /\
    (forall j, j <> i -> content t' !! j = content t !! j) /\ forall h', h' <> h -> a' !! h' = a !! h') as Hset.
  { intros a a' h t i row ->. exists (set_row t i row). rewrite lookup_insert. split_and!; [done..| |].
    - intros j Hj. unfold set_row. simpl. destruct row; [by rewrite lookup_insert_ne|by rewrite lookup_delete_ne].
    - intros h' Hh'. by rewrite lookup_insert_ne. }
  assert (forall (x : res) a h t i r a', a !! h = Some t -> answers x a r a' -> exists t', a' !! h = Some t' /\ arows t' = arows t /\ acols t' = acols t /\
    (forall j, j <> i -> content t' !! j = content t !! j) /\ forall h', h' <> h -> a' !! h' = a !! h') as Hans.
  { intros x a h t i r a' Ht [_ ->]. exists t. done. }
  intros o h i a t r a' Ho Ht [H|H]; destruct o as [| |[?|] ?|[?|] ?|[?|] ? []|? ? ?|? ? ? ?]; simplify_eq/=; try (by destruct H); try (by eapply Hans).
  all: try (destruct H as (t0&Ht0&H); assert (t0 = t) as -> by congruence).
  - destruct (decide _); [destruct H as [_ H]; by eapply Hset|by eapply Hans].
  - destruct (decide _); [destruct H as [_ H]; by eapply Hset|by eapply Hans].
  - by eapply Hans.
  - destruct H as (c&v&_&_&H). by eapply Hans.
  - destruct H as (c&_&_&H). by eapply Hset.
  - destruct H as [_ H]. by eapply Hans.
Qed.
Print Assumptions C38_rows_are_independent.

(** A program: an array of 3 rows of 2, one failing row allocation, two rows, one of them freed and found missing, the other written, read and left to be freed with the array. *)
Fixpoint run_all (p : list op) (s : st obj) : option (list res * st obj) :=
  match p with
  | [] => Some ([], s)
  | o :: p => match run 8 4 o s with Done (r, s') => match run_all p s' with Some (l, s'') => Some (r :: l, s'') | None => None end | _ => None end
  end.
Definition h1 : positive := 1%positive.
Example ex_rows :
  match run_all [Create 3 2; AllocRow (Some h1) 2; AllocRow (Some h1) 2; AllocRow (Some h1) 2; AllocRow (Some h1) 0; AllocRow (Some h1) 3; WriteCell h1 2 1 42; FreeRow (Some h1) 0; FreeRow (Some h1) 0;
                 GetRow (Some h1) 0 true; GetRow (Some h1) 2 true; GetRow (Some h1) 3 true; ReadCell h1 2 1; Free (Some h1)] (St ∅ ∅ [true; false] 0) with
  | Some (l, s) => l = [RHandle (Some h1); RBool false; RBool true; RBool false; RBool true; RBool false; RUnit; RBool true; RBool false;
                        RRow GET_ROW_NOT_ALLOCATED; RRow GET_ROW_OK; RRow GET_ROW_INVALID_ARGS; RVal 42; RUnit] /\ size (objs s) = 0%nat
  | None => False
  end.
Proof. vm_compute. repeat split. Qed.
