(** A separation logic for [prog]: assertions speak about a thread's own piece of heap and about tokens it holds; a fixed invariant relates all the
    tokens of all the threads with the part of the heap they share. Linear, like SepHeap: neither heap nor tokens can be dropped. *)
From Verif Require Export SepHeap.
From stdpp Require Export gmultiset.
From Verif Require Import Common Block CMem Prog.

Section cprop.
Context {O T : Type} `{Countable T}.
Record share := Share { spiece : piece O; stoks : gmultiset T }.
Definition sempty : share := Share pempty ∅.
Definition sunion (r1 r2 : share) : share := Share (punion (spiece r1) (spiece r2)) (stoks r1 ⊎ stoks r2).
Definition sdisj (r1 r2 : share) : Prop := pdisj (spiece r1) (spiece r2).

Lemma sunion_empty_l r : sunion sempty r = r.
Proof. destruct r. unfold sunion. simpl. by rewrite punion_empty_l left_id_L. Qed.
Lemma sunion_empty_r r : sunion r sempty = r.
Proof. destruct r. unfold sunion. simpl. by rewrite punion_empty_r right_id_L. Qed.
Lemma sdisj_empty_l r : sdisj sempty r.
Proof. apply pdisj_empty_l. Qed.
Lemma sdisj_empty_r r : sdisj r sempty.
Proof. apply pdisj_empty_r. Qed.
Lemma sdisj_sym r1 r2 : sdisj r1 r2 -> sdisj r2 r1.
Proof. apply pdisj_sym. Qed.
Lemma sunion_comm r1 r2 : sdisj r1 r2 -> sunion r1 r2 = sunion r2 r1.
Proof. intros Hd. unfold sunion. f_equal; [by apply punion_comm|]. apply (comm_L _). Qed.
Lemma sunion_assoc r1 r2 r3 : sunion r1 (sunion r2 r3) = sunion (sunion r1 r2) r3.
Proof. unfold sunion. simpl. by rewrite punion_assoc (assoc_L (⊎)). Qed.
Lemma sdisj_union_l r1 r2 r3 : sdisj (sunion r1 r2) r3 <-> sdisj r1 r3 /\ sdisj r2 r3.
Proof. apply pdisj_union_l. Qed.
Lemma sdisj_union_r r1 r2 r3 : sdisj r1 (sunion r2 r3) <-> sdisj r1 r2 /\ sdisj r1 r3.
Proof. apply pdisj_union_r. Qed.

Record cProp := CProp { cholds : share -> Prop }.
Inductive cequiv' (P Q : cProp) : Prop := { cequiv_in : forall r, cholds P r <-> cholds Q r }.
#[local] Instance cequiv : Equiv cProp := cequiv'.
#[local] Instance cequivalence : Equivalence (≡@{cProp}).
Proof. split; repeat destruct 1; constructor; naive_solver. Qed.
#[local] Set Warnings "-redundant-canonical-projection".
Canonical Structure cPropO := discreteO cProp.

Inductive centails (P Q : cProp) : Prop := { centails_in : forall r, cholds P r -> cholds Q r }.
Definition cemp : cProp := CProp (fun r => r = sempty).
Definition cpure (φ : Prop) : cProp := CProp (fun _ => φ).
Definition cand (P Q : cProp) : cProp := CProp (fun r => cholds P r /\ cholds Q r).
Definition cor (P Q : cProp) : cProp := CProp (fun r => cholds P r \/ cholds Q r).
Definition cimpl (P Q : cProp) : cProp := CProp (fun r => cholds P r -> cholds Q r).
Definition cforall (A : Type) (Φ : A -> cProp) : cProp := CProp (fun r => forall a, cholds (Φ a) r).
Definition cexist (A : Type) (Φ : A -> cProp) : cProp := CProp (fun r => exists a, cholds (Φ a) r).
Definition csep (P Q : cProp) : cProp := CProp (fun r => exists r1 r2, r = sunion r1 r2 /\ sdisj r1 r2 /\ cholds P r1 /\ cholds Q r2).
Definition cwand (P Q : cProp) : cProp := CProp (fun r => forall r', sdisj r r' -> cholds P r' -> cholds Q (sunion r r')).
Definition cpers (P : cProp) : cProp := CProp (fun _ => cholds P sempty).

Lemma cbi_mixin : BiMixin centails cemp cpure cand cor cimpl cforall cexist csep cwand cpers.
Proof.
  split.
  - split; [done|]. intros P Q R [H1] [H2]. constructor. auto.
  - intros P Q. split; [intros [H1]; split; constructor; naive_solver|]. intros [[H1] [H2]]. constructor. naive_solver.
  - intros n φ1 φ2 H1. constructor. simpl. naive_solver.
  - intros n P1 P2 [H1] Q1 Q2 [H2]. constructor. simpl. naive_solver.
  - intros n P1 P2 [H1] Q1 Q2 [H2]. constructor. simpl. naive_solver.
  - intros n P1 P2 [H1] Q1 Q2 [H2]. constructor. simpl. naive_solver.
  - intros A n Φ1 Φ2 H1. constructor. simpl. intros r. split; intros H' a; [rewrite -(cequiv_in _ _ (H1 a))|rewrite (cequiv_in _ _ (H1 a))]; auto.
  - intros A n Φ1 Φ2 H1. constructor. simpl. intros r. split; intros [a H']; exists a; [rewrite -(cequiv_in _ _ (H1 a))|rewrite (cequiv_in _ _ (H1 a))]; auto.
  - intros n P1 P2 [H1] Q1 Q2 [H2]. constructor. simpl. naive_solver.
  - intros n P1 P2 [H1] Q1 Q2 [H2]. constructor. simpl. naive_solver.
  - intros n P1 P2 [H1]. constructor. simpl. naive_solver.
  - intros φ P H1. by constructor.
  - intros φ P H1. constructor. intros r Hφ. by apply (H1 Hφ).
  - intros P Q. constructor. simpl. tauto.
  - intros P Q. constructor. simpl. tauto.
  - intros P Q R [H1] [H2]. constructor. simpl. auto.
  - intros P Q. constructor. simpl. tauto.
  - intros P Q. constructor. simpl. tauto.
  - intros P Q R [H1] [H2]. constructor. simpl. intros r [?|?]; auto.
  - intros P Q R [H1]. constructor. simpl. intros r ? ?. by apply H1.
  - intros P Q R [H1]. constructor. simpl. intros r [? ?]. by apply H1.
  - intros A P Ψ H1. constructor. simpl. intros r Hr a. by apply H1.
  - intros A Ψ a. constructor. simpl. auto.
  - intros A Ψ a. constructor. simpl. eauto.
  - intros A Φ Q H1. constructor. simpl. intros r [a Ha]. by eapply H1.
  - intros P P' Q Q' [H1] [H2]. constructor. simpl. naive_solver.
  - intros P. constructor. simpl. intros r Hr. exists sempty, r. rewrite sunion_empty_l. auto using sdisj_empty_l.
  - intros P. constructor. simpl. intros r (r1&r2&->&_&->&H1). by rewrite sunion_empty_l.
  - intros P Q. constructor. simpl. intros r (r1&r2&->&Hd&H1&H2). exists r2, r1. rewrite (sunion_comm r1 r2) //. eauto using sdisj_sym.
  - intros P Q R. constructor. simpl. intros r (r12&r3&->&Hd&(r1&r2&->&Hd'&H1&H2)&H3). apply sdisj_union_l in Hd as [? ?].
    exists r1, (sunion r2 r3). rewrite -sunion_assoc. split; [done|]. split; [by apply sdisj_union_r|]. eauto 10.
  - intros P Q R [H1]. constructor. simpl. intros r Hr r' Hd HQ. apply H1. simpl. eauto 10.
  - intros P Q R [H1]. constructor. simpl. intros r (r1&r2&->&Hd&H2&H3). by apply H1.
  - intros P Q [H1]. constructor. simpl. auto.
  - intros P. constructor. simpl. auto.
  - constructor. simpl. auto.
  - intros P Q. constructor. simpl. auto.
  - intros A Ψ. constructor. simpl. auto.
  - intros P Q. constructor. simpl. intros r (r1&r2&_&_&H1&_). done.
  - intros P Q. constructor. simpl. intros r [H1 H2]. exists sempty, r. rewrite sunion_empty_l. auto using sdisj_empty_l.
Qed.
Definition clater_aux : seal (fun P : cProp => P).
Proof. by eexists. Qed.
Definition clater : cProp -> cProp := unseal clater_aux.
Lemma cbi_later_mixin : BiLaterMixin centails cpure cor cimpl cforall cexist csep cpers clater.
Proof. unfold clater. rewrite (seal_eq clater_aux). eapply bi_later_mixin_id; [done|apply cbi_mixin]. Qed.
Canonical Structure cPropI : bi := {| bi_ofe_mixin := ofe_mixin_of cProp; bi_bi_mixin := cbi_mixin; bi_bi_later_mixin := cbi_later_mixin |}.

Lemma centails_intro (P Q : cPropI) : (forall r, cholds P r -> cholds Q r) -> P ⊢ Q.
Proof. by constructor. Qed.
Lemma cholds_mono (P Q : cPropI) r : (P ⊢ Q) -> cholds P r -> cholds Q r.
Proof. intros [H1]. auto. Qed.

(** An assertion about the thread's own heap; tokens. *)
Definition lift (P : hPropI O) : cPropI := CProp (fun r => hholds P (spiece r) /\ stoks r = ∅).
Definition tok (t : T) : cPropI := CProp (fun r => r = Share pempty {[+ t +]}).
Definition toks (X : gmultiset T) : cPropI := CProp (fun r => r = Share pempty X).

Lemma toks_union X Y : toks (X ⊎ Y) ⊣⊢ toks X ∗ toks Y.
Proof.
  apply (anti_symm _); apply centails_intro; simpl.
  - intros r ->. exists (Share pempty X), (Share pempty Y). unfold sunion, sdisj. simpl. rewrite punion_empty_l. auto using pdisj_empty_l.
  - intros r (r1&r2&->&_&->&->). unfold sunion. simpl. by rewrite punion_empty_l.
Qed.
Lemma toks_empty : toks ∅ ⊣⊢ emp.
Proof. apply (anti_symm _); apply centails_intro; simpl; done. Qed.
Lemma toks_tok t : toks {[+ t +]} = tok t.
Proof. done. Qed.
Lemma lift_mono (P Q : hPropI O) : (P ⊢ Q) -> lift P ⊢ lift Q.
Proof. intros HPQ. apply centails_intro. simpl. intros r [H1 H2]. split; [|done]. by eapply holds_mono. Qed.
Lemma lift_sep (P Q : hPropI O) : lift (P ∗ Q) ⊣⊢ lift P ∗ lift Q.
Proof.
  apply (anti_symm _); apply centails_intro; simpl.
  - intros r [(r1&r2&E&Hd&H1&H2) E2]. exists (Share r1 ∅), (Share r2 ∅). unfold sunion, sdisj. simpl. split_and!; try done.
    destruct r as [p X]. simpl in *. subst. by rewrite left_id_L.
  - intros r (r1&r2&->&Hd&[H1 E1]&[H2 E2]). unfold sunion. simpl. rewrite E1 E2 left_id_L. split; [|done]. exists (spiece r1), (spiece r2). done.
Qed.
Lemma lift_emp : lift emp ⊣⊢ emp.
Proof.
  apply (anti_symm _); apply centails_intro; simpl.
  - intros [p X] [E1 E2]. simpl in *. change (p = pempty) in E1. by subst.
  - by intros r ->.
Qed.
Lemma lift_exist {A} (Φ : A -> hPropI O) : lift (∃ a, Φ a) ⊣⊢ ∃ a, lift (Φ a).
Proof. apply (anti_symm _); apply centails_intro; simpl; [intros r [[a Ha] E]; by exists a|intros r [a [Ha E]]; split; [by exists a|done]]. Qed.
Lemma lift_affine_pure φ : lift (⌈φ⌉) ⊣⊢ ⌈φ⌉.
Proof.
  apply (anti_symm _); apply centails_intro; simpl.
  - intros [p X] [[E1 E2] E3]. simpl in *. change (p = pempty) in E1. by subst.
  - intros r [-> E2]. done.
Qed.

(** The invariant: all the tokens there are, and the shared part of the heap. *)
Context (Inv : gmultiset T -> piece O -> Prop).

(** [upd P]: P, after rearranging what is shared and what is not. *)
Definition upd (P : cPropI) : cPropI := CProp (fun r => forall fr sh,
  sdisj r fr -> pdisj (spiece (sunion r fr)) sh -> Inv (stoks (sunion r fr)) sh ->
  exists r' sh', sdisj r' fr /\ pdisj (spiece (sunion r' fr)) sh' /\ Inv (stoks (sunion r' fr)) sh' /\
    punion (spiece (sunion r fr)) sh = punion (spiece (sunion r' fr)) sh' /\ cholds P r').

Definition heap_state (c : piece O) (orc : list bool) (f : nat) : st O := St (pmem c) (pobjs c) orc f.

(** [cwp p f Q]: the thread may run p with what it holds, when at least f allocations have failed so far: whatever others do between its actions, each is defined, and after finitely
    many of them p answers, and Q holds of the answer and the failures by then. *)
Definition cwp_closed {A} (Q : A -> nat -> cPropI) (W : prog (st O) A -> nat -> share -> Prop) : Prop :=
  (forall a f r, cholds (upd (Q a f)) r -> W (Ret a) f r) /\
  (forall X (m : M (st O) X) k f r,
     (forall fr sh orc f', sdisj r fr -> pdisj (spiece (sunion r fr)) sh -> Inv (stoks (sunion r fr)) sh -> f <= f' ->
        exists x s' r' sh', m (heap_state (punion (spiece (sunion r fr)) sh) orc f') = Done (x, s') /\
          sdisj r' fr /\ pdisj (spiece (sunion r' fr)) sh' /\ Inv (stoks (sunion r' fr)) sh' /\
          mem s' = pmem (punion (spiece (sunion r' fr)) sh') /\ objs s' = pobjs (punion (spiece (sunion r' fr)) sh') /\
          f' <= fails s' /\ W (k x) (fails s') r') -> W (Act m k) f r).
Definition cwp {A} (p : prog (st O) A) (f : nat) (Q : A -> nat -> cPropI) : cPropI :=
  CProp (fun r => forall W, cwp_closed Q W -> W p f r).

Lemma cwp_is_closed {A} (Q : A -> nat -> cPropI) : cwp_closed Q (fun p f r => cholds (cwp p f Q) r).
Proof.
  split.
  - intros a f r Hr W HW. by apply HW.
  - intros X m k f r Hr W HW. apply (proj2 HW). intros fr sh orc f' H1 H2 H3 H4. destruct (Hr fr sh orc f' H1 H2 H3 H4) as (x&s'&r'&sh'&?&?&?&?&?&?&?&Hk).
    exists x, s', r', sh'. split_and!; try done. by apply Hk.
Qed.
Lemma cwp_unfold {A} (p : prog (st O) A) f (Q : A -> nat -> cPropI) r : cholds (cwp p f Q) r ->
  match p with
  | Ret a => cholds (upd (Q a f)) r
  | Act m k => forall fr sh orc f', sdisj r fr -> pdisj (spiece (sunion r fr)) sh -> Inv (stoks (sunion r fr)) sh -> f <= f' ->
        exists x s' r' sh', m (heap_state (punion (spiece (sunion r fr)) sh) orc f') = Done (x, s') /\
          sdisj r' fr /\ pdisj (spiece (sunion r' fr)) sh' /\ Inv (stoks (sunion r' fr)) sh' /\
          mem s' = pmem (punion (spiece (sunion r' fr)) sh') /\ objs s' = pobjs (punion (spiece (sunion r' fr)) sh') /\
          f' <= fails s' /\ cholds (cwp (k x) (fails s') Q) r'
  end.
Proof.
  intros Hr. apply (Hr (fun p f r => match p with
  | Ret a => cholds (upd (Q a f)) r
  | Act m k => forall fr sh orc f', sdisj r fr -> pdisj (spiece (sunion r fr)) sh -> Inv (stoks (sunion r fr)) sh -> f <= f' ->
        exists x s' r' sh', m (heap_state (punion (spiece (sunion r fr)) sh) orc f') = Done (x, s') /\
          sdisj r' fr /\ pdisj (spiece (sunion r' fr)) sh' /\ Inv (stoks (sunion r' fr)) sh' /\
          mem s' = pmem (punion (spiece (sunion r' fr)) sh') /\ objs s' = pobjs (punion (spiece (sunion r' fr)) sh') /\
          f' <= fails s' /\ cholds (cwp (k x) (fails s') Q) r'
  end)). split.
  - done.
  - intros X m k f0 r0 H1 fr sh orc f' Hd1 Hd2 HI Hf. destruct (H1 fr sh orc f' Hd1 Hd2 HI Hf) as (x&s'&r'&sh'&E&?&?&?&?&?&?&Hk).
    exists x, s', r', sh'. split_and!; try done. destruct (k x) as [a|Y m' k']; [by apply (proj1 (cwp_is_closed Q))|by apply (proj2 (cwp_is_closed Q))].
Qed.
Lemma cwp_ind {A} (Q : A -> nat -> cPropI) (W : prog (st O) A -> nat -> share -> Prop) :
  (forall a f r, cholds (upd (Q a f)) r -> W (Ret a) f r) ->
  (forall X (m : M (st O) X) k f r,
     (forall fr sh orc f', sdisj r fr -> pdisj (spiece (sunion r fr)) sh -> Inv (stoks (sunion r fr)) sh -> f <= f' ->
        exists x s' r' sh', m (heap_state (punion (spiece (sunion r fr)) sh) orc f') = Done (x, s') /\
          sdisj r' fr /\ pdisj (spiece (sunion r' fr)) sh' /\ Inv (stoks (sunion r' fr)) sh' /\
          mem s' = pmem (punion (spiece (sunion r' fr)) sh') /\ objs s' = pobjs (punion (spiece (sunion r' fr)) sh') /\
          f' <= fails s' /\ W (k x) (fails s') r') -> W (Act m k) f r) ->
  forall p f r, cholds (cwp p f Q) r -> W p f r.
Proof. intros H1 H2 p f r Hr. by apply Hr. Qed.

(** Rules. *)
Lemma upd_intro P : P ⊢ upd P.
Proof. apply centails_intro. intros r Hr fr sh H1 H2 H3. exists r, sh. split_and!; done. Qed.
Lemma upd_mono P Q : (P ⊢ Q) -> upd P ⊢ upd Q.
Proof.
  intros HPQ. apply centails_intro. intros r Hr fr sh H1 H2 H3. destruct (Hr fr sh H1 H2 H3) as (r'&sh'&?&?&?&?&?). exists r', sh'. split_and!; try done. by eapply cholds_mono.
Qed.
Lemma upd_upd P : upd (upd P) ⊢ upd P.
Proof.
  apply centails_intro. intros r Hr fr sh H1 H2 H3. destruct (Hr fr sh H1 H2 H3) as (r1&sh1&D1&D2&I1&E1&HP).
  destruct (HP fr sh1 D1 D2 I1) as (r2&sh2&D3&D4&I2&E2&HP2). exists r2, sh2. split_and!; try done. by rewrite E1 E2.
Qed.
Lemma upd_frame P Q : upd P ∗ Q ⊢ upd (P ∗ Q).
Proof.
  apply centails_intro. intros r (r1&r2&->&Hd&HP&HQ) fr sh H1 H2 H3.
  apply sdisj_union_l in H1 as [H1a H1b]. rewrite -sunion_assoc in H2, H3 |- *.
  destruct (HP (sunion r2 fr) sh) as (r'&sh'&D1&D2&I1&E1&HP1); [by apply sdisj_union_r|done|done|].
  apply sdisj_union_r in D1 as [D1 D3]. exists (sunion r' r2), sh'. rewrite -sunion_assoc. split; [by apply sdisj_union_l|]. split_and!; try done. exists r', r2. done.
Qed.
#[global] Instance elim_modal_upd p P Q : ElimModal True p false (upd P) P (upd Q) (upd Q).
Proof.
  unfold ElimModal. iIntros (_) "[H1 H2]". iApply upd_upd. rewrite bi.intuitionistically_if_elim. iStopProof. rewrite upd_frame. apply upd_mono. apply bi.wand_elim_r.
Qed.

Lemma cwp_ret {A} (a : A) f (Q : A -> nat -> cPropI) : upd (Q a f) ⊢ cwp (Ret a) f Q.
Proof. apply centails_intro. intros r Hr. by apply (proj1 (cwp_is_closed Q)). Qed.
Lemma upd_cwp {A} (p : prog (st O) A) f (Q : A -> nat -> cPropI) : upd (cwp p f Q) ⊢ cwp p f Q.
Proof.
  apply centails_intro. intros r Hr. destruct p as [a|X m k].
  - apply (proj1 (cwp_is_closed Q)). eapply cholds_mono; [apply upd_upd|]. eapply cholds_mono; [|exact Hr]. apply upd_mono. apply centails_intro. intros r'. apply (cwp_unfold (Ret a)).
  - apply (proj2 (cwp_is_closed Q)). intros fr sh orc f' H1 H2 H3 Hf. destruct (Hr fr sh H1 H2 H3) as (r1&sh1&D1&D2&I1&E1&HP). rewrite E1.
    by apply (cwp_unfold (Act m k) _ _ _ HP).
Qed.
#[global] Instance elim_modal_upd_cwp {A} p P (m : prog (st O) A) f Q : ElimModal True p false (upd P) P (cwp m f Q) (cwp m f Q).
Proof.
  unfold ElimModal. iIntros (_) "[H1 H2]". iApply upd_cwp. rewrite bi.intuitionistically_if_elim. iStopProof. rewrite upd_frame. apply upd_mono. apply bi.wand_elim_r.
Qed.
Lemma cwp_fails {A} (p : prog (st O) A) f f' (Q : A -> nat -> cPropI) r : f <= f' -> cholds (cwp p f Q) r -> (exists a, p = Ret a) \/ cholds (cwp p f' Q) r.
Proof.
  intros Hf Hr. destruct p as [a|X m k]; [eauto|right]. pose proof (cwp_unfold _ _ _ _ Hr) as Hu. simpl in Hu. apply (proj2 (cwp_is_closed Q)).
  intros fr sh orc f'' H1 H2 H3 H4. apply Hu; try done. lia.
Qed.
Lemma cwp_wand {A} (p : prog (st O) A) f (Q Q' : A -> nat -> cPropI) :
  cwp p f Q -∗ (∀ a f', ⌈f <= f'⌉ -∗ Q a f' -∗ Q' a f') -∗ cwp p f Q'.
Proof.
  iIntros "H1 H2". iStopProof. apply centails_intro. intros r (r1&r2&->&Hd&H1&H2). revert Hd H2.
  assert (cholds (cwp p f Q) r1 -> forall f0, f0 <= f -> sdisj r1 r2 -> cholds (∀ a f', ⌈f0 <= f'⌉ -∗ Q a f' -∗ Q' a f')%I r2 -> cholds (cwp p f Q') (sunion r1 r2)) as Hgo; [|eauto].
  clear H1. revert p f r1.
  refine (cwp_ind Q (fun p f r1 => forall f0, f0 <= f -> sdisj r1 r2 -> cholds (∀ a f', ⌈f0 <= f'⌉ -∗ Q a f' -∗ Q' a f')%I r2 -> cholds (cwp p f Q') (sunion r1 r2)) _ _).
  - intros a f r1 H1 f0 Hf Hd H2. apply (proj1 (cwp_is_closed Q')). eapply cholds_mono; [apply upd_mono, (bi.wand_elim_r (Q a f))|]. eapply cholds_mono; [apply upd_frame|].
    exists r1, r2. split; [done|]. split; [done|]. split; [done|].
    specialize (H2 a f sempty (sdisj_empty_r _)). rewrite sunion_empty_r in H2. apply H2. by split.
  - intros X m k f r1 H1 f0 Hf Hd H2. apply (proj2 (cwp_is_closed Q')). intros fr sh orc f' D1 D2 I1 Hf'.
    apply sdisj_union_l in D1 as [D1a D1b]. rewrite -sunion_assoc in D2, I1 |- *.
    destruct (H1 (sunion r2 fr) sh orc f') as (x&s'&r'&sh'&E&D3&D4&I2&Hm&Ho&Hf2&Hk); [by apply sdisj_union_r|done|done|done|].
    apply sdisj_union_r in D3 as [D3 D5].
    exists x, s', (sunion r' r2), sh'. rewrite -sunion_assoc. split; [done|]. split; [by apply sdisj_union_l|]. split_and!; try done. eapply Hk; [|done|done]. lia.
Qed.
Lemma cwp_bind {A B} (p : prog (st O) A) (k : A -> prog (st O) B) f (Q : B -> nat -> cPropI) :
  cwp p f (fun a f' => cwp (k a) f' Q) ⊢ cwp (pbind p k) f Q.
Proof.
  apply centails_intro. intros r. revert p f r. refine (cwp_ind (fun a f' => cwp (k a) f' Q) (fun p f r => cholds (cwp (pbind p k) f Q) r) _ _).
  - intros a f r Hr. rewrite pbind_ret. by eapply cholds_mono; [apply upd_cwp|].
  - intros X m k' f r Hr. rewrite pbind_act. by apply (proj2 (cwp_is_closed Q)).
Qed.
(** An action on the thread's own heap. *)
Lemma cwp_own {A X} P (m : M (st O) X) (k : X -> prog (st O) A) f Φ (Q : A -> nat -> cPropI) :
  (forall f', f <= f' -> P ⊢ wpi m f' (Φ f')) ->
  lift P -∗ (∀ f' x f'', ⌈f <= f' /\ f' <= f''⌉ -∗ lift (Φ f' x f'') -∗ cwp (k x) f'' Q) -∗ cwp (Act m k) f Q.
Proof.
  intros Hm. iIntros "H1 H2". iStopProof. apply centails_intro. intros r (r1&r2&->&Hd&[HP HX]&H2). apply (proj2 (cwp_is_closed Q)).
  intros fr sh orc f' D1 D2 I1 Hf'. apply sdisj_union_l in D1 as [D1a D1b]. rewrite -sunion_assoc in D2, I1 |- *. apply pdisj_union_l in D2 as [D2a D2b].
  pose proof (holds_mono _ _ _ (Hm f' Hf') HP) as Hw. specialize (Hw (punion (spiece (sunion r2 fr)) sh) orc).
  assert (pdisj (spiece r1) (punion (spiece (sunion r2 fr)) sh)) as D4. { apply pdisj_union_r. split; [|done]. apply pdisj_union_r. by split. }
  specialize (Hw D4). unfold heap_state. simpl spiece in *. rewrite -punion_assoc. destruct (m _) as [[x s']| |]; [|done..].
  destruct Hw as (p'&D5&Hmem&Hobj&Hf2&HΦ). apply pdisj_union_r in D5 as [D5a D5b]. apply pdisj_union_r in D5a as [D5a D5c].
  exists x, s', (sunion (Share p' ∅) r2), sh. split; [done|]. split; [by apply sdisj_union_l|]. split.
  { simpl. rewrite -punion_assoc. apply pdisj_union_l. by split. }
  split. { simpl in *. rewrite HX in I1. by rewrite -(assoc_L (⊎)). }
  cbn [spiece sunion]. rewrite -!punion_assoc. rewrite -!punion_assoc in Hmem, Hobj. split; [done|]. split; [done|]. split; [done|].
  specialize (H2 f' x (fails s') sempty (sdisj_empty_r _)). rewrite sunion_empty_r in H2. specialize (H2 (conj eq_refl (conj Hf' Hf2)) (Share p' ∅)).
  rewrite sunion_comm; [|done]. apply H2; [by apply pdisj_sym|]. by split.
Qed.
End cprop.
Arguments share : clear implicits.
Arguments share _ _ {_ _}.
Arguments cProp : clear implicits.
Arguments cProp _ _ {_ _}.
Arguments cPropI : clear implicits.
Arguments cPropI _ _ {_ _}.
