(** A separation logic for the heap of CMem, as an instance of Iris's interface for such logics, so that its proof mode can be used. Assertions
    are predicates on pieces of heap; they are linear: an assertion describes all of the piece it is about, so nothing can be dropped (leaked). *)
From iris.bi Require Export bi.
From iris.proofmode Require Export tactics.
From Verif Require Import Common Block CMem.

(** A fact, about no heap at all. *)
Notation "⌈ φ ⌉" := (<affine> ⌜φ⌝)%I (at level 1, φ at level 200, format "⌈ φ ⌉") : bi_scope.

Section hprop.
Context {O : Type}.
(** A piece of heap: byte blocks and structs. *)
Record piece := Piece { pmem : gmap positive block; pobjs : gmap positive O }.
Definition pempty : piece := Piece ∅ ∅.
Definition punion (r1 r2 : piece) : piece := Piece (pmem r1 ∪ pmem r2) (pobjs r1 ∪ pobjs r2).
Definition pdisj (r1 r2 : piece) : Prop := pmem r1 ##ₘ pmem r2 /\ pobjs r1 ##ₘ pobjs r2.

Lemma punion_empty_l r : punion pempty r = r.
Proof. destruct r. unfold punion. simpl. by rewrite !left_id_L. Qed.
Lemma punion_empty_r r : punion r pempty = r.
Proof. destruct r. unfold punion. simpl. by rewrite !right_id_L. Qed.
Lemma pdisj_empty_l r : pdisj pempty r.
Proof. split; apply map_disjoint_empty_l. Qed.
Lemma pdisj_empty_r r : pdisj r pempty.
Proof. split; apply map_disjoint_empty_r. Qed.
Lemma pdisj_sym r1 r2 : pdisj r1 r2 -> pdisj r2 r1.
Proof. intros []. by split. Qed.
Lemma punion_comm r1 r2 : pdisj r1 r2 -> punion r1 r2 = punion r2 r1.
Proof. intros []. unfold punion. f_equal; by apply map_union_comm. Qed.
Lemma punion_assoc r1 r2 r3 : punion r1 (punion r2 r3) = punion (punion r1 r2) r3.
Proof. unfold punion. simpl. by rewrite !assoc_L. Qed.
Lemma pdisj_union_l r1 r2 r3 : pdisj (punion r1 r2) r3 <-> pdisj r1 r3 /\ pdisj r2 r3.
Proof. unfold pdisj, punion. simpl. rewrite !map_disjoint_union_l. tauto. Qed.
Lemma pdisj_union_r r1 r2 r3 : pdisj r1 (punion r2 r3) <-> pdisj r1 r2 /\ pdisj r1 r3.
Proof. unfold pdisj, punion. simpl. rewrite !map_disjoint_union_r. tauto. Qed.

Record hProp := HProp { hholds : piece -> Prop }.
Inductive hequiv' (P Q : hProp) : Prop := { hequiv_in : forall r, hholds P r <-> hholds Q r }.
#[local] Instance hequiv : Equiv hProp := hequiv'.
#[local] Instance hequivalence : Equivalence (≡@{hProp}).
Proof. split; repeat destruct 1; constructor; naive_solver. Qed.
#[local] Set Warnings "-redundant-canonical-projection".
Canonical Structure hPropO := discreteO hProp.

Inductive hentails (P Q : hProp) : Prop := { hentails_in : forall r, hholds P r -> hholds Q r }.
Definition hemp : hProp := HProp (fun r => r = pempty).
Definition hpure (φ : Prop) : hProp := HProp (fun _ => φ).
Definition hand (P Q : hProp) : hProp := HProp (fun r => hholds P r /\ hholds Q r).
Definition hor (P Q : hProp) : hProp := HProp (fun r => hholds P r \/ hholds Q r).
Definition himpl (P Q : hProp) : hProp := HProp (fun r => hholds P r -> hholds Q r).
Definition hforall (A : Type) (Φ : A -> hProp) : hProp := HProp (fun r => forall a, hholds (Φ a) r).
Definition hexist (A : Type) (Φ : A -> hProp) : hProp := HProp (fun r => exists a, hholds (Φ a) r).
Definition hsep (P Q : hProp) : hProp := HProp (fun r => exists r1 r2, r = punion r1 r2 /\ pdisj r1 r2 /\ hholds P r1 /\ hholds Q r2).
Definition hwand (P Q : hProp) : hProp := HProp (fun r => forall r', pdisj r r' -> hholds P r' -> hholds Q (punion r r')).
Definition hpers (P : hProp) : hProp := HProp (fun _ => hholds P pempty).

Lemma hbi_mixin : BiMixin hentails hemp hpure hand hor himpl hforall hexist hsep hwand hpers.
Proof.
  split.
  - split; [done|]. intros P Q R [H1] [H2]. constructor. auto.
  - intros P Q. split; [intros [H]; split; constructor; naive_solver|]. intros [[H1] [H2]]. constructor. naive_solver.
  - intros n φ1 φ2 H. constructor. simpl. naive_solver.
  - intros n P1 P2 [H1] Q1 Q2 [H2]. constructor. simpl. naive_solver.
  - intros n P1 P2 [H1] Q1 Q2 [H2]. constructor. simpl. naive_solver.
  - intros n P1 P2 [H1] Q1 Q2 [H2]. constructor. simpl. naive_solver.
  - intros A n Φ1 Φ2 H. constructor. simpl. intros r. split; intros H' a; [rewrite -(hequiv_in _ _ (H a))|rewrite (hequiv_in _ _ (H a))]; auto.
  - intros A n Φ1 Φ2 H. constructor. simpl. intros r. split; intros [a H']; exists a; [rewrite -(hequiv_in _ _ (H a))|rewrite (hequiv_in _ _ (H a))]; auto.
  - intros n P1 P2 [H1] Q1 Q2 [H2]. constructor. simpl. naive_solver.
  - intros n P1 P2 [H1] Q1 Q2 [H2]. constructor. simpl. naive_solver.
  - intros n P1 P2 [H1]. constructor. simpl. naive_solver.
  - intros φ P H. by constructor.
  - intros φ P H. constructor. intros r Hφ. by apply (H Hφ).
  - intros P Q. constructor. simpl. tauto.
  - intros P Q. constructor. simpl. tauto.
  - intros P Q R [H1] [H2]. constructor. simpl. auto.
  - intros P Q. constructor. simpl. tauto.
  - intros P Q. constructor. simpl. tauto.
  - intros P Q R [H1] [H2]. constructor. simpl. intros r [?|?]; auto.
  - intros P Q R [H]. constructor. simpl. intros r ? ?. by apply H.
  - intros P Q R [H]. constructor. simpl. intros r [? ?]. by apply H.
  - intros A P Ψ H. constructor. simpl. intros r Hr a. by apply H.
  - intros A Ψ a. constructor. simpl. auto.
  - intros A Ψ a. constructor. simpl. eauto.
  - intros A Φ Q H. constructor. simpl. intros r [a Ha]. by eapply H.
  - intros P P' Q Q' [H1] [H2]. constructor. simpl. naive_solver.
  - intros P. constructor. simpl. intros r Hr. exists pempty, r. rewrite punion_empty_l. auto using pdisj_empty_l.
  - intros P. constructor. simpl. intros r (r1&r2&->&_&->&H). by rewrite punion_empty_l.
  - intros P Q. constructor. simpl. intros r (r1&r2&->&Hd&H1&H2). exists r2, r1. rewrite (punion_comm r1 r2) //. eauto using pdisj_sym.
  - intros P Q R. constructor. simpl. intros r (r12&r3&->&Hd&(r1&r2&->&Hd'&H1&H2)&H3). apply pdisj_union_l in Hd as [? ?].
    exists r1, (punion r2 r3). rewrite -punion_assoc. split; [done|]. split; [by apply pdisj_union_r|]. eauto 10.
  - intros P Q R [H]. constructor. simpl. intros r Hr r' Hd HQ. apply H. simpl. eauto 10.
  - intros P Q R [H]. constructor. simpl. intros r (r1&r2&->&Hd&H1&H2). by apply H.
  - intros P Q [H]. constructor. simpl. auto.
  - intros P. constructor. simpl. auto.
  - constructor. simpl. auto.
  - intros P Q. constructor. simpl. auto.
  - intros A Ψ. constructor. simpl. auto.
  - intros P Q. constructor. simpl. intros r (r1&r2&_&_&H&_). done.
  - intros P Q. constructor. simpl. intros r [H1 H2]. exists pempty, r. rewrite punion_empty_l. auto using pdisj_empty_l.
Qed.
Definition hlater_aux : seal (fun P : hProp => P).
Proof. by eexists. Qed.
Definition hlater : hProp -> hProp := unseal hlater_aux.
Lemma hbi_later_mixin : BiLaterMixin hentails hpure hor himpl hforall hexist hsep hpers hlater.
Proof. unfold hlater. rewrite (seal_eq hlater_aux). eapply bi_later_mixin_id; [done|apply hbi_mixin]. Qed.
Canonical Structure hPropI : bi := {| bi_ofe_mixin := ofe_mixin_of hProp; bi_bi_mixin := hbi_mixin; bi_bi_later_mixin := hbi_later_mixin |}.

(** Ownership of one block, and of one struct. *)
Definition blk_at (p : positive) (b : block) : hPropI := HProp (fun r => r = Piece {[p := b]} ∅).
Definition obj_at (h : positive) (o : O) : hPropI := HProp (fun r => r = Piece ∅ {[h := o]}).

(** [wpi m f Q]: started with this piece of heap (and any other beside it), whatever allocations fail, and when f have
    failed before, m is defined, leaves the other pieces alone, and its result, the number of failures so far, and what has become of the piece satisfy Q. *)
Definition wpi {A} (m : M (st O) A) (f : nat) (Q : A -> nat -> hPropI) : hPropI := HProp (fun r => forall fr orc, pdisj r fr ->
  match m (St (pmem (punion r fr)) (pobjs (punion r fr)) orc f) with
  | Done (a, s') => exists r', pdisj r' fr /\ mem s' = pmem (punion r' fr) /\ objs s' = pobjs (punion r' fr) /\ f <= fails s' /\ hholds (Q a (fails s')) r'
  | _ => False
  end).

Lemma hentails_intro (P Q : hPropI) : (forall r, hholds P r -> hholds Q r) -> P ⊢ Q.
Proof. by constructor. Qed.
Lemma holds_mono (P Q : hPropI) r : (P ⊢ Q) -> hholds P r -> hholds Q r.
Proof. intros [H]. auto. Qed.

Lemma wpi_ret {A} (a : A) f (Q : A -> nat -> hPropI) : Q a f ⊢ wpi (ret a) f Q.
Proof. apply hentails_intro. intros r Hr fr orc Hd. simpl. exists r. auto. Qed.
Lemma wpi_bind {A B} (m : M (st O) A) (k : A -> M (st O) B) f (Q : B -> nat -> hPropI) :
  wpi m f (fun a f' => wpi (k a) f' Q) ⊢ wpi (bind m k) f Q.
Proof.
  apply hentails_intro. intros r Hr fr orc Hd. specialize (Hr fr orc Hd). unfold bind. destruct (m _) as [[a s']| |]; [|done..].
  destruct Hr as (r'&Hd'&Hm&Ho&Hf&Hr'). specialize (Hr' fr (oracle s') Hd'). rewrite -Hm -Ho in Hr'. destruct s'; simpl in *.
  destruct (k a _) as [[b s'']| |]; [|done..]. destruct Hr' as (r''&?&?&?&?&?). exists r''. split_and!; try done; lia.
Qed.
Lemma wpi_wand {A} (m : M (st O) A) f (Q Q' : A -> nat -> hPropI) :
  wpi m f Q -∗ (∀ a f', ⌈f <= f'⌉ -∗ Q a f' -∗ Q' a f') -∗ wpi m f Q'.
Proof.
  iIntros "H1 H2". iStopProof. apply hentails_intro. intros r (r1&r2&->&Hd&H1&H2) fr orc Hdf.
  apply pdisj_union_l in Hdf as [Hdf1 Hdf2]. specialize (H1 (punion r2 fr) orc). rewrite punion_assoc in H1.
  specialize (H1 ltac:(by apply pdisj_union_r)). destruct (m _) as [[a s']| |]; [|done..]. destruct H1 as (r'&Hd'&Hm&Ho&Hf&HQ).
  apply pdisj_union_r in Hd' as [Hd1 Hd2]. exists (punion r2 r'). split; [by apply pdisj_union_l|].
  rewrite (punion_comm r2 r'); last by apply pdisj_sym. rewrite -punion_assoc. split; [done|]. split; [done|]. split; [done|].
  rewrite (punion_comm r' r2) //.
  specialize (H2 a (fails s') pempty (pdisj_empty_r _)). rewrite punion_empty_r in H2.
  apply H2; [|by apply pdisj_sym|done]. by split.
Qed.
(** Adequacy: what a wpi says about a run. *)
Lemma wpi_run {A} (m : M (st O) A) (Q : A -> nat -> hPropI) s :
  hholds (wpi m (fails s) Q) (Piece (mem s) (objs s)) ->
  exists a s', m s = Done (a, s') /\ fails s <= fails s' /\ hholds (Q a (fails s')) (Piece (mem s') (objs s')).
Proof.
  intros H. specialize (H pempty (oracle s) (pdisj_empty_r _)). rewrite punion_empty_r in H. simpl in H. destruct s as [me os orc f]. simpl in *.
  destruct (m _) as [[a s']| |]; [|done..]. destruct H as (r'&_&Hm&Ho&Hf&HQ). rewrite !right_id_L in Hm Ho. exists a, s'. split; [done|]. split; [done|].
  rewrite Hm Ho. by destruct r'.
Qed.
End hprop.
Arguments piece : clear implicits.
Arguments hProp : clear implicits.
Arguments hPropI : clear implicits.
Notation "p ↦b b" := (blk_at p b) (at level 20, format "p  ↦b  b") : bi_scope.
Notation "h ↦o o" := (obj_at h o) (at level 20, format "h  ↦o  o") : bi_scope.
