(** Programs that own any number of instances of a data type, each at a handle: shared part of the proofs of modules over SepHeap. *)
From Verif Require Export SepHeap SepRules.
From Verif Require Import Common Block CMem.

Section all.
Context {O V : Type}.
(** [P h v]: the instance at handle h, which is a struct, has the value v. *)
Context (P : positive -> V -> hPropI O).
Implicit Types a : gmap positive V.

Definition all_of a : hPropI O := ([∗ map] h ↦ v ∈ a, P h v)%I.
Definition reps (s : st O) a : Prop := hholds (all_of a) (Piece (mem s) (objs s)).

Lemma all_open a h v : a !! h = Some v -> all_of a ⊢ P h v ∗ (∀ v', P h v' -∗ all_of (<[h := v']> a)).
Proof. intros H. rewrite /all_of. by rewrite -(big_sepM_insert_acc _ _ h v H). Qed.
Lemma all_take a h v : a !! h = Some v -> all_of a ⊢ P h v ∗ all_of (delete h a).
Proof. intros H. by rewrite /all_of big_sepM_delete. Qed.
Lemma all_add a h v : (forall v', P h v -∗ P h v' -∗ False) -> P h v -∗ all_of a -∗ ⌜a !! h = None⌝ ∧ all_of (<[h := v]> a).
Proof.
  iIntros (Hex) "Hv Ha". destruct (a !! h) as [v'|] eqn:E.
  - iDestruct (all_take _ _ _ E with "Ha") as "[Hv2 Ha]". by iDestruct (Hex with "Hv Hv2") as %[].
  - iSplit; [done|]. rewrite /all_of big_sepM_insert //. iFrame.
Qed.

Lemma reps_empty orc f : reps (St ∅ ∅ orc f) ∅.
Proof. change (hholds (all_of ∅) pempty). apply (holds_mono emp%I); [|done]. by rewrite /all_of big_sepM_empty. Qed.
Lemma reps_no_leak s : reps s ∅ -> mem s = ∅ /\ objs s = ∅.
Proof.
  intros R. assert (hholds (emp%I : hPropI O) (Piece (mem s) (objs s))) as E. { eapply holds_mono; [|exact R]. by rewrite /all_of big_sepM_empty. }
  by injection E.
Qed.
Lemma reps_pure s a (φ : Prop) : reps s a -> (all_of a ⊢ ⌜φ⌝) -> φ.
Proof. intros R H. assert (hholds (⌜φ⌝%I : hPropI O) (Piece (mem s) (objs s))) as Hφ; [|done]. by eapply holds_mono. Qed.
Lemma reps_step {A} (m : M (st O) A) s a (φ : A -> nat -> gmap positive V -> Prop) :
  (all_of a ⊢ wpi m (fails s) (fun r f' => ∃ a', ⌈φ r f' a'⌉ ∗ all_of a')) -> reps s a ->
  exists r s' a', m s = Done (r, s') /\ reps s' a' /\ φ r (fails s') a'.
Proof.
  intros H R. destruct (wpi_run m _ s (holds_mono _ _ _ H R)) as (r&s'&Hr&_&a'&r1&r2&E&Hd&[Hemp Hφ]&Ha).
  exists r, s', a'. split; [done|]. split; [|done]. unfold reps. rewrite E. change (r1 = pempty) in Hemp. subst r1. by rewrite punion_empty_l.
Qed.
End all.

(** A piece with n structs. *)
Definition has_objs {O} (n : nat) : hPropI O := HProp (fun r => size (pobjs r) = n).
Lemma has_objs_emp {O} : (emp : hPropI O) ⊢ has_objs 0.
Proof. apply hentails_intro. by intros r ->. Qed.
Lemma has_objs_obj {O} h (o : O) : h ↦o o ⊢ has_objs 1.
Proof. apply hentails_intro. intros r ->. simpl. by rewrite map_size_singleton. Qed.
Lemma has_objs_sep {O} n m : (has_objs n ∗ has_objs m : hPropI O) ⊢ has_objs (n + m).
Proof. apply hentails_intro. intros r (r1&r2&->&[_ Hd]&<-&<-). simpl. by apply map_size_disj_union. Qed.
Lemma has_objs_map {O V} (P : positive -> V -> hPropI O) (n : V -> nat) a :
  (forall h v, P h v ⊢ has_objs (n v)) -> all_of P a ⊢ has_objs (map_fold (fun _ v k => (n v + k)%nat) 0%nat a).
Proof.
  intros HP. unfold all_of. induction a as [|h v a Hh IH] using map_ind.
  - rewrite big_sepM_empty map_fold_empty. apply has_objs_emp.
  - rewrite big_sepM_insert // map_fold_insert_L //; [|intros; lia]. rewrite HP IH. apply has_objs_sep.
Qed.
Lemma reps_objs {O V} (P : positive -> V -> hPropI O) (n : V -> nat) s a :
  (forall h v, P h v ⊢ has_objs (n v)) -> reps P s a -> size (objs s) = map_fold (fun _ v k => (n v + k)%nat) 0%nat a.
Proof. intros HP R. by apply (holds_mono _ _ _ (has_objs_map P n a HP)) in R. Qed.
