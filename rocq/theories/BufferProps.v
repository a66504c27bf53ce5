(** Property theorems for src/buffer.c (C09). *)
From Verif Require Import Common Block CMem CMemFacts BufferModel BufferSpec BufferProofs.

(** The states a program can reach: it starts without buffers and makes allowed calls. [calls s0 a0 t s a]: from s0 (whose live buffers
    hold a0) the calls t, with their answers, lead to s with live buffers holding a. *)
Inductive calls (s0 : st BUFFER) (a0 : buffers) : list (op * res) -> st BUFFER -> buffers -> Prop :=
| calls_nil : calls s0 a0 [] s0 a0
| calls_step t s a o r s' a' : calls s0 a0 t s a -> allowed a o -> run o s = Done (r, s') ->
    (effect o a r a' \/ (fails s < fails s' /\ failure o = Some r /\ a' = a)) -> calls s0 a0 (t ++ [(o, r)]) s' a'.

Lemma calls_rep oracle t s a : calls (St ∅ ∅ oracle 0) ∅ t s a -> brep s a.
Proof.
  generalize (rep_empty buffer buf_ok oracle 0). intros R0. induction 1 as [|t s a o' r s' a' H IH Hal Hrun He]; [done|].
  destruct (step_ok o' s a IH Hal) as (r1&s1&a1&Hrun1&R1&He1). rewrite Hrun in Hrun1. simplify_eq.
  assert (a' = a1) as ->; [|done]. by eapply effect_det.
Qed.

(** C09: whatever calls a program has made, on any number of buffers and whichever allocations failed, every further allowed call completes
    without undefined behaviour and behaves as on byte sequences ([effect]); or an allocation failed during
    the call, the call says so, and no buffer has changed. *)
Theorem C09_buffer_is_a_byte_sequence :
  forall oracle t s a o, calls (St ∅ ∅ oracle 0) ∅ t s a -> allowed a o ->
    exists r s' a', run o s = Done (r, s') /\ calls (St ∅ ∅ oracle 0) ∅ (t ++ [(o, r)]) s' a' /\
      (effect o a r a' \/ (fails s < fails s' /\ failure o = Some r /\ a' = a)).
Proof.
  intros oracle t s a o H Ha. pose proof (calls_rep _ _ _ _ H) as R.
  destruct (step_ok o s a R Ha) as (r&s'&a'&Hrun&_&He). exists r, s', a'. split; [done|]. split; [|done]. by econstructor.
Qed.
Print Assumptions C09_buffer_is_a_byte_sequence.

(** C09: nothing leaks: once every buffer has been deleted, no memory is in use. *)
Theorem C09_no_leak :
  forall oracle t s, calls (St ∅ ∅ oracle 0) ∅ t s ∅ -> mem s = ∅ /\ objs s = ∅.
Proof. intros oracle t s H. by eapply rep_all_freed, calls_rep. Qed.
Print Assumptions C09_no_leak.

(** C09: and while buffers are alive, the blocks in use are exactly the ones they hold. *)
Theorem C09_memory_is_owned :
  forall oracle t s a p, calls (St ∅ ∅ oracle 0) ∅ t s a ->
    (is_Some (mem s !! p) <-> exists h b, objs s !! h = Some b /\ buffer b = Some p).
Proof.
  intros oracle t s a p H. pose proof (calls_rep _ _ _ _ H) as R. split; [apply R|].
  intros (h&b&Ho&Hb). destruct (proj1 (rep_dom _ _ _ _ R h)) as [v Hv]; [eauto|]. destruct (rep_ok _ _ _ _ R h b v Ho Hv) as [_ Hp]. by apply Hp.
Qed.
Print Assumptions C09_memory_is_owned.

(** A program with two buffers and one failing allocation (the fifth). *)
Definition prog : list op :=
  [New; AppendBuild (Some 1%positive) (Some [1; 2; 3]%Z) 3; Create (Some [7; 8; 9]%Z) 2; Append (Some 1%positive) (Some 2%positive);
   Append (Some 1%positive) (Some 2%positive); Shrink (Some 1%positive) 1 false; Prepend (Some 1%positive) (Some 2%positive);
   Content (Some 1%positive) true; Delete (Some 1%positive); Delete (Some 2%positive)].
Fixpoint answers_of (p : list op) (s : st BUFFER) : option (list res * st BUFFER) :=
  match p with
  | [] => Some ([], s)
  | o :: p => match run o s with Done (r, s') => match answers_of p s' with Some (l, s'') => Some (r :: l, s'') | None => None end | _ => None end
  end.
Example ex_run :
  match answers_of prog (St ∅ ∅ [true; true; true; true; false] 0) with
  | Some (l, s) => l = [RHandle (Some 1%positive); RInt 0; RHandle (Some 2%positive); RInt 1; RInt 0; RInt 0; RInt 0;
      RBytes (Some (Some [Some 7; Some 8; Some 2; Some 3; Some 7; Some 8]%Z)); RUnit; RUnit] /\ fails s = 1 /\ map_to_list (mem s) = [] /\ map_to_list (objs s) = []
  | None => False
  end.
Proof. vm_compute. repeat split. Qed.
