(** Rules of Csl for the operations of CMem on a thread's own heap. *)
From Verif Require Export Csl SepRules.
From Verif Require Import Common Block CMem Prog.

Section rules.
Context {O T : Type} `{!EqDecision T} {CT : Countable T} (Inv : gmultiset T -> piece O -> Prop).
Context {A : Type} (Q : A -> nat -> cPropI O T).
Implicit Types (f : nat).

(** A deterministic action. *)
Lemma cwp_det {X} (m : M (st O) X) (k : X -> prog (st O) A) (φ : X -> Prop) P P' f :
  (forall f', P ⊢ wpi m f' (fun x f'' => ⌈φ x /\ f'' = f'⌉ ∗ P')) ->
  lift P -∗ (∀ x f', ⌈f <= f' /\ φ x⌉ -∗ lift P' -∗ cwp Inv (k x) f' Q) -∗ cwp Inv (Act m k) f Q.
Proof.
  intros Hm. iIntros "H1 H2". iApply (cwp_own Inv P m k f (fun f' x f'' => ⌈φ x /\ f'' = f'⌉ ∗ P')%I Q with "H1"); [intros; apply Hm|].
  iIntros (f' x f'') "%Hf H". iEval (rewrite lift_sep lift_affine_pure) in "H". iDestruct "H" as "[%Hx H]". destruct Hx as [Hx ->]. iApply ("H2" with "[] H"). iPureIntro. naive_solver.
Qed.
Lemma cwp_new_obj o0 (k : ptr -> prog (st O) A) f :
  (∀ h f', ⌈f <= f'⌉ -∗ lift (h ↦o o0) -∗ cwp Inv (k (Some h)) f' Q) ∧ (∀ f', ⌈f < f'⌉ -∗ cwp Inv (k None) f' Q) ⊢ cwp Inv (Act (new_obj o0) k) f Q.
Proof.
  iIntros "H". iApply (cwp_own Inv emp%I (new_obj o0) k f (fun f' x f'' => match x with Some h => ⌈f'' = f'⌉ ∗ h ↦o o0 | None => ⌈f' < f''⌉ end)%I Q with "[]").
  - intros f' Hf. iIntros "H". iApply wpi_new_obj. iSplit; [|iPureIntro; lia]. iIntros (h) "H1". iFrame "H1". done.
  - by rewrite lift_emp.
  - iIntros (f' x f'') "%Hf Hx". destruct x as [h|].
    + iEval (rewrite lift_sep lift_affine_pure) in "Hx". iDestruct "Hx" as "[-> Hx]". iDestruct "H" as "[H _]". iApply ("H" with "[] Hx"). iPureIntro. lia.
    + iEval (rewrite lift_affine_pure) in "Hx". iDestruct "Hx" as "%Hx". iDestruct "H" as "[_ H]". iApply "H". iPureIntro. lia.
Qed.
Lemma cwp_malloc n (k : ptr -> prog (st O) A) f :
  (∀ p f', ⌈f <= f'⌉ -∗ lift (p ↦b fresh_block n) -∗ cwp Inv (k (Some p)) f' Q) ∧ (∀ f', ⌈f < f'⌉ -∗ cwp Inv (k None) f' Q) ⊢ cwp Inv (Act (malloc n) k) f Q.
Proof.
  iIntros "H". iApply (cwp_own Inv emp%I (malloc n) k f (fun f' x f'' => match x with Some h => ⌈f'' = f'⌉ ∗ h ↦b fresh_block n | None => ⌈f' < f''⌉ end)%I Q with "[]").
  - intros f' Hf. iIntros "H". iApply wpi_malloc. iSplit; [|iPureIntro; lia]. iIntros (h) "H1". iFrame "H1". done.
  - by rewrite lift_emp.
  - iIntros (f' x f'') "%Hf Hx". destruct x as [h|].
    + iEval (rewrite lift_sep lift_affine_pure) in "Hx". iDestruct "Hx" as "[-> Hx]". iDestruct "H" as "[H _]". iApply ("H" with "[] Hx"). iPureIntro. lia.
    + iEval (rewrite lift_affine_pure) in "Hx". iDestruct "Hx" as "%Hx". iDestruct "H" as "[_ H]". iApply "H". iPureIntro. lia.
Qed.
Lemma cwp_set_obj h o o' (k : unit -> prog (st O) A) f :
  lift (h ↦o o) -∗ (∀ f', ⌈f <= f'⌉ -∗ lift (h ↦o o') -∗ cwp Inv (k tt) f' Q) -∗ cwp Inv (Act (set_obj h o') k) f Q.
Proof.
  iIntros "H1 H2". iApply (cwp_det _ _ (fun _ => True) _ (h ↦o o')%I with "H1").
  - intros f'. iIntros "H". iApply (wpi_set_obj with "H"). iIntros "H". iFrame "H". done.
  - iIntros ([] f') "[%Hf _] H". by iApply ("H2" with "[//] H").
Qed.
Lemma cwp_get_obj h o (k : O -> prog (st O) A) f :
  lift (h ↦o o) -∗ (∀ f', ⌈f <= f'⌉ -∗ lift (h ↦o o) -∗ cwp Inv (k o) f' Q) -∗ cwp Inv (Act (get_obj h) k) f Q.
Proof.
  iIntros "H1 H2". iApply (cwp_det _ _ (fun x => x = o) _ (h ↦o o)%I with "H1").
  - intros f'. iIntros "H". iApply (wpi_get_obj with "H"). iIntros "H". iFrame "H". done.
  - iIntros (x f') "%Hf H". destruct Hf as [Hf ->]. by iApply ("H2" with "[//] H").
Qed.
Lemma cwp_free_obj h o (k : unit -> prog (st O) A) f :
  lift (h ↦o o) -∗ (∀ f', ⌈f <= f'⌉ -∗ cwp Inv (k tt) f' Q) -∗ cwp Inv (Act (free_obj h) k) f Q.
Proof.
  iIntros "H1 H2". iApply (cwp_det _ _ (fun _ => True) _ emp%I with "H1").
  - intros f'. iIntros "H". iApply (wpi_free_obj with "H"). done.
  - iIntros ([] f') "[%Hf _] H". iEval (rewrite lift_emp) in "H". by iApply ("H2" with "[//]").
Qed.
Lemma cwp_free p b (k : unit -> prog (st O) A) f :
  lift (p ↦b b) -∗ (∀ f', ⌈f <= f'⌉ -∗ cwp Inv (k tt) f' Q) -∗ cwp Inv (Act (free (Some p)) k) f Q.
Proof.
  iIntros "H1 H2". iApply (cwp_det _ _ (fun _ => True) _ emp%I with "H1").
  - intros f'. iIntros "H". iApply (wpi_free with "H"). done.
  - iIntros ([] f') "[%Hf _] H". iEval (rewrite lift_emp) in "H". by iApply ("H2" with "[//]").
Qed.
(** An action that touches no memory. *)
Lemma cwp_none {X} (m : M (st O) X) (k : X -> prog (st O) A) x f : (forall s, m s = Done (x, s)) ->
  (∀ f', ⌈f <= f'⌉ -∗ cwp Inv (k x) f' Q) -∗ cwp Inv (Act m k) f Q.
Proof.
  intros Hm. iIntros "H". iApply (cwp_det m k (fun y => y = x) emp%I emp%I with "[]").
  - intros f'. apply hentails_intro. intros r Hr fr orc Hd. rewrite Hm. exists r. split; [done|]. split; [done|]. split; [done|]. split; [done|]. exists pempty, r. rewrite punion_empty_l. split; [done|]. split; [apply pdisj_empty_l|]. done.
  - by rewrite lift_emp.
  - iIntros (y f') "%Hf H2". destruct Hf as [Hf ->]. iEval (rewrite lift_emp) in "H2". by iApply "H".
Qed.
End rules.
