(** Proofs for RcsProps: what each call does. *)
From Verif Require Import CslRules Rc CslPool.
From Verif Require Import Common Block BlockFacts CMem CMemFacts Prog RcsModel RcsSpec RcsProofs.

Definition refs_in (l : list sref) : list ref := map (option_map (fun x => (fst x, TheString (snd x)))) l.
Lemma cells_refs l : cells_with (refs_in l) = cells_with l.
Proof. unfold cells_with, refs_in. rewrite map_map. apply map_ext. by intros [[h s]|]. Qed.
Lemma refs_insert l i x : refs_in (<[i := x]> l) = <[i := option_map (fun x => (fst x, TheString (snd x))) x]> (refs_in l).
Proof. apply (list_fmap_insert (option_map (fun x : positive * bytes => (fst x, TheString (snd x))))). Qed.
Lemma refs_length l : length (refs_in l) = length l.
Proof. apply fmap_length. Qed.
Definition array (a : positive) (l : list sref) : cP :=
  (∃ sp, lift (a ↦o OArr sp (Z.of_nat (length l))) ∗ match sp with Some p => slots OCells p (refs_in l) | None => ⌈l = []⌉ end)%I.
(** What it is to hold something. *)
Definition own (x : held) : cP :=
  match x with
  | Ref h w => own_ref h w
  | Mem p l => lift (p ↦b bytes_block l)
  | Arr a l => array a l
  | Tup t k n l => ⌈length l = (Z.to_nat n * k)%nat⌉ ∗ slots (OTup n) t l
  end%I.
Notation hold := (all own).
Lemma hold_cons x l : hold (x :: l) ⊣⊢ own x ∗ hold l.
Proof. done. Qed.
Lemma hold_nil : ⊢ hold [].
Proof. unfold all. simpl. done. Qed.
Global Hint Extern 0 (environments.envs_entails _ (all own _)) => iApply hold_nil : core.
Lemma hold_one x : hold [x] ⊣⊢ own x.
Proof. unfold all. simpl. apply right_id. apply _. Qed.
Lemma hold_app l l' : hold (l ++ l') ⊣⊢ hold l ∗ hold l'.
Proof. apply big_sepL_app. Qed.
Notation goal_of o f := (cwp CInv (run o) f (answer lib own answers o f)).
Lemma finish o f r f' : f <= f' -> answers o r f f' -> hold (gives o r) ⊢ cwp CInv (Ret r) f' (answer lib own answers o f).
Proof. intros Hf Ha. iIntros "H". iApply cwp_ret. iApply upd_intro. unfold answer. iSplit; [done|]. iFrame "H". Qed.
Lemma dec_no P `{Decision P} (Q R : Prop) : ~ P -> R -> if decide P then Q else R.
Proof. intros. by destruct (decide P). Qed.
Lemma dec_yes P `{Decision P} (Q R : Prop) : P -> Q -> if decide P then Q else R.
Proof. intros. by destruct (decide P). Qed.

Lemma spec_malloc l f : ⊢ goal_of (Malloc l) f.
Proof.
  unfold run. step. iApply cwp_malloc. iSplit.
  - iIntros (p f1) "%Hf1 H1". step. iApply (cwp_det _ _ _ _ (fun _ => True) _ (p ↦b bytes_block l)%I with "H1").
    + intros f'. iIntros "H". unfold fresh_block. iApply (wpi_store with "H"); [rewrite replicate_length; unfold bytes_block; rewrite fmap_length; lia|]. iIntros "H". simpl.
      rewrite drop_ge; [|rewrite replicate_length; unfold bytes_block; rewrite fmap_length; lia]. rewrite app_nil_r. by iFrame "H".
    + iIntros (x f2) "[%Hf2 _] H1". step. iApply (finish (Malloc l)); [lia|done|]. simpl. rewrite hold_one. iFrame "H1".
  - iIntros (f1) "%Hf1". step. iApply (finish (Malloc l)); [lia| |done]. intros _. lia.
Qed.
Lemma spec_free p l f : own (Mem p l) ⊢ goal_of (Free p l) f.
Proof. iIntros "H". unfold run. step. iApply (cwp_free with "H"). iIntros (f1) "%Hf1". step. by iApply (finish (Free p l)). Qed.

(** Copying a string that can be read. *)
Lemma cwp_create_impl (Q : ptr -> nat -> cP) src s P f : no_zero s ->
  (forall B (k : bytes -> code B) f1 Q', P -∗ (∀ f', ⌈f1 <= f'⌉ -∗ P -∗ cwp CInv (k s) f' Q') -∗ cwp CInv (Act src k) f1 Q') ->
  P -∗ (∀ r f', ⌈f <= f' /\ (if decide (fits s) then made r f f' else r = None)⌉ -∗ P -∗ match r with Some h => own_ref h (TheString s) | None => emp end -∗ Q r f') -∗ cwp CInv (rc_string_create_impl src) f Q.
Proof.
  intros Hz Hr. iIntros "HP HQ". unfold rc_string_create_impl. step. iApply (Hr with "HP"). iIntros (f1) "%Hf1 HP". step.
  destruct (Z.gtb_spec (Z.of_nat (length s) + 1) (UINT64_MAX - INTERNAL_EXTRA)) as [Hg|Hg].
  - iApply cwp_ret. iApply upd_intro. iApply ("HQ" with "[] HP []"); [|done]. iPureIntro. split; [done|]. apply dec_no; [|done]. unfold fits, INTERNAL_EXTRA in *. lia.
  - assert (fits s) as Hfit by (unfold fits, INTERNAL_EXTRA in *; lia). step. iApply cwp_new_obj. iSplit.
    + iIntros (h f2) "%Hf2 H1". step. iApply (Hr with "HP"). iIntros (f3) "%Hf3 HP". step. rewrite decide_True //. step. iApply (cwp_set_obj with "H1"). iIntros (f4) "%Hf4 H1". step. iApply cwp_ret.
      iMod (share_new h (inl (inl (inl s))) with "H1 []") as "H1"; [done|done|by rewrite /memory_of lift_emp|]. iApply upd_intro. iApply ("HQ" $! (Some h) with "[] HP H1"). iPureIntro. split; [lia|]. by apply dec_yes.
    + iIntros (f2) "%Hf2". step. iApply cwp_ret. iApply upd_intro. iApply ("HQ" with "[] HP []"); [|done]. iPureIntro. split; [lia|]. apply dec_yes; [done|]. intros _. lia.
Qed.
Lemma cwp_create (Q : ptr -> nat -> cP) s f : no_zero s ->
  (∀ r f', ⌈f <= f' /\ (if decide (fits s) then made r f f' else r = None)⌉ -∗ match r with Some h => own_ref h (TheString s) | None => emp end -∗ Q r f') -∗ cwp CInv (rc_string_create (Some s)) f Q.
Proof.
  intros Hz. iIntros "HQ". unfold rc_string_create. iApply (cwp_create_impl _ _ _ emp%I with "[//]"); [done| |].
  - intros B k f1 Q'. iIntros "_ H". iApply cwp_none; [done|]. iIntros (f') "%Hf". by iApply "H".
  - iIntros (r f') "%Hf _ H". by iApply ("HQ" with "[//] H").
Qed.
Lemma spec_create s f : allowed (Create s) -> ⊢ goal_of (Create s) f.
Proof.
  intros Ha. unfold run. destruct s as [s|]; [|simpl; step; by iApply (finish (Create None))].
  sub. iApply cwp_create; [done|]. iIntros (r f') "%Hf H". destruct Hf as [Hf Hm]. iApply (finish (Create (Some s))); [done|done|]. simpl. destruct r; simpl; [rewrite hold_one; iFrame "H"|done].
Qed.
Lemma spec_format format text again f : allowed (CreateFormat format text again) -> ⊢ goal_of (CreateFormat format text again) f.
Proof.
  intros Ha. unfold run, rc_string_create_with_vformat. destruct format; [|step; iApply (finish (CreateFormat false text again)); [done|done|]; by destruct text].
  cbn [negb]. destruct text as [s|]; [|step; by iApply (finish (CreateFormat true None again))].
  destruct (decide (Z.of_nat (length s) = INT_MAX)) as [Hi|Hi]; [step; iApply (finish (CreateFormat true (Some s) again)); [done|by apply dec_yes|done]|].
  step. iApply cwp_new_obj. iSplit.
  - iIntros (h f1) "%Hf1 H1". step. destruct again; step.
    + iApply (cwp_set_obj with "H1"). iIntros (f2) "%Hf2 H1". step. iApply upd_cwp. iMod (share_new h (inl (inl (inl s))) with "H1 []") as "H1"; [done|done|by rewrite /memory_of lift_emp|].
      iApply upd_intro. iApply (finish (CreateFormat true (Some s) true)); [lia|by apply dec_no|]. simpl. rewrite hold_one. iFrame "H1".
    + iApply (cwp_free_obj with "H1"). iIntros (f2) "%Hf2". step. iApply (finish (CreateFormat true (Some s) false)); [lia|by apply dec_no|done].
  - iIntros (f1) "%Hf1". step. iApply (finish (CreateFormat true (Some s) again)); [lia|apply dec_no; [done|]|done]. destruct again; [intros _; lia|done].
Qed.
Lemma cwp_create_move (Q : ptr -> nat -> cP) p l f : 0%Z ∈ l ->
  lift (p ↦b bytes_block l) -∗ ((∀ h f', ⌈f <= f'⌉ -∗ own_ref h (TheString (string_in l)) -∗ Q (Some h) f') ∧ (∀ f', ⌈f < f'⌉ -∗ lift (p ↦b bytes_block l) -∗ Q None f')) -∗
  cwp CInv (rc_string_create_with_move_memory (Some p)) f Q.
Proof.
  intros Hl. iIntros "H HQ". unfold rc_string_create_with_move_memory. step. iApply cwp_new_obj. iSplit.
  - iIntros (h f1) "%Hf1 H1". iApply cwp_ret. iMod (share_new h (inl (inl (inr (p, l)))) with "H1 H") as "H1"; [done|done|]. iApply upd_intro. iDestruct "HQ" as "[HQ _]". by iApply ("HQ" with "[//] H1").
  - iIntros (f1) "%Hf1". iApply cwp_ret. iApply upd_intro. iDestruct "HQ" as "[_ HQ]". by iApply ("HQ" with "[//] H").
Qed.
Lemma spec_move m f : allowed (CreateMove m) -> hold (hold_mem m) ⊢ goal_of (CreateMove m) f.
Proof.
  intros Ha. iIntros "H". unfold run. destruct m as [[p l]|]; [|simpl; step; by iApply (finish (CreateMove None))].
  simpl. rewrite hold_one. sub. iApply (cwp_create_move with "H"); [done|]. iSplit.
  - iIntros (h f1) "%Hf1 H". iApply (finish (CreateMove (Some (p, l)))); [done|done|]. simpl. rewrite hold_one. iFrame "H".
  - iIntros (f1) "%Hf1 H". iApply (finish (CreateMove (Some (p, l)))); [lia|intros _; lia|]. simpl. rewrite hold_one. iFrame "H".
Qed.
Lemma spec_custom q l at_ func f : allowed (CreateCustom q l at_ func) -> own (Mem q l) ⊢ goal_of (CreateCustom q l at_ func) f.
Proof.
  intros Ha. iIntros "H". unfold run, rc_string_create_with_custom_free. destruct at_ as [off|]; [destruct func|].
  - step. iApply cwp_new_obj. iSplit.
    + iIntros (h f1) "%Hf1 H1". step. iApply upd_cwp. iMod (share_new h (inl (inr (q, l, off))) with "H1 H") as "H1"; [done|done|]. iApply upd_intro.
      iApply (finish (CreateCustom q l (Some off) true)); [lia|apply dec_no; [by intros [?|?]|done]|]. simpl. rewrite hold_one. iFrame "H1".
    + iIntros (f1) "%Hf1". step. iApply (finish (CreateCustom q l (Some off) true)); [lia|apply dec_no; [by intros [?|?]|intros _; lia]|]. simpl. rewrite hold_one. iFrame "H".
  - step. iApply (finish (CreateCustom q l (Some off) false)); [done|apply dec_yes; [by right|done]|]. simpl. rewrite hold_one. iFrame "H".
  - step. iApply (finish (CreateCustom q l None func)); [done|apply dec_yes; [by left|done]|]. simpl. rewrite hold_one. iFrame "H".
Qed.
Lemma own_ref_no_zero (h : positive) (s : bytes) (R : cP) : (⌈no_zero s⌉ -∗ own_ref h (TheString s) -∗ R) ⊢ own_ref h (TheString s) -∗ R.
Proof. iIntros "HR (%v&%Hv&H)". iApply "HR"; [iPureIntro; destruct Hv; by eapply what_no_zero|]. iExists v. by iFrame "H". Qed.
Lemma spec_recreate h f : hold (hold_str h) ⊢ goal_of (Recreate h) f.
Proof.
  iIntros "H". unfold run. destruct h as [[h s]|]; [|simpl; step; by iApply (finish (Recreate None))].
  simpl. rewrite hold_one. iApply (own_ref_no_zero with "[] H"). iIntros "%Hz H". sub. iApply (cwp_create_impl _ _ _ (own_ref h (TheString s)) with "H"); [done| |].
  - intros B k f1 Q'. iIntros "H1 H2". by iApply (cwp_string with "H1").
  - iIntros (r f') "%Hf H1 H2". destruct Hf as [Hf Hm]. iApply (finish (Recreate (Some (h, s)))); [done|done|]. simpl. rewrite hold_cons. iFrame "H1". destruct r; simpl; [rewrite hold_one; iFrame "H2"|done].
Qed.
Lemma spec_read h s f : own (Ref h (TheString s)) ⊢ goal_of (ReadString h s) f.
Proof.
  iIntros "H". unfold run. step. iApply (cwp_string with "H"). iIntros (f1) "%Hf1 H". step. iApply (finish (ReadString h s)); [done|done|]. simpl. rewrite hold_one. iFrame "H".
Qed.
Lemma spec_assign h w f : own (Ref h w) ⊢ goal_of (Assign h w) f.
Proof.
  iIntros "H". unfold run. sub. iApply (cwp_inc_ref with "H"). iIntros (f1) "%Hf1 H1 H2". iApply (finish (Assign h w)); [done|done|]. simpl. rewrite !hold_cons. iFrame "H1 H2". done.
Qed.
Lemma spec_release h w f : own (Ref h w) ⊢ goal_of (Release h w) f.
Proof. iIntros "H". unfold run. sub. iApply (cwp_dec_ref with "H"). iIntros (f1) "%Hf1". by iApply (finish (Release h w)). Qed.
Lemma spec_ptr m func q l f : hold (hold_mem m ++ [Mem q l]) ⊢ goal_of (CreatePtr m func q l) f.
Proof.
  iIntros "H". unfold run. destruct m as [[p m]|]; simpl; [|step; iApply (finish (CreatePtr None func q l)); [done|done|]; iFrame "H"].
  step. iApply cwp_new_obj. iSplit.
  - iIntros (h f1) "%Hf1 H1". step. iApply upd_cwp. destruct func.
    + rewrite !hold_cons. iDestruct "H" as "(H2&H3&_)". iMod (share_new h (inr (p, q, Some (m, l))) with "H1 [H2 H3]") as "H1"; [done|done|simpl; rewrite lift_sep; iFrame "H2 H3"|]. iApply upd_intro.
      iApply (finish (CreatePtr (Some (p, m)) true q l)); [lia|done|]. simpl. rewrite hold_one. iFrame "H1".
    + iMod (share_new h (inr (p, q, None)) with "H1 []") as "H1"; [done|done|by rewrite /memory_of lift_emp|]. iApply upd_intro.
      iApply (finish (CreatePtr (Some (p, m)) false q l)); [lia|done|]. simpl. rewrite (hold_cons (Ref _ _)). iFrame "H1 H".
  - iIntros (f1) "%Hf1". step. iApply (finish (CreatePtr (Some (p, m)) func q l)); [lia|intros _; lia|]. iFrame "H".
Qed.
Lemma spec_read_ptr h p f : own (Ref h (ThePointer p)) ⊢ goal_of (ReadPtr h p) f.
Proof.
  iIntros "(%v&%Hv&H)". unfold run. step. iApply (cwp_look with "H"). iIntros (n f1) "%Hf1 H". destruct Hv as [Hw Hp]. destruct v as [[[s'|[p' l]]|[[q l] off]]|[[p' c] x]]; simpl in Hp; try discriminate Hp. injection Hp as ->. simpl. step.
  iApply (finish (ReadPtr h p)); [done|done|]. simpl. rewrite hold_one. iExists _. iFrame "H". done.
Qed.

(** Arrays. *)
Lemma refs_replicate n : refs_in (replicate n None) = replicate n None.
Proof. apply (fmap_replicate (option_map (fun x : positive * bytes => (fst x, TheString (snd x))))). Qed.
Lemma cells_replicate {A} n : cells_with (replicate n (None : option (positive * A))) = replicate n (Some None).
Proof. apply (fmap_replicate (fun x : option (positive * A) => Some (option_map fst x))). Qed.
Lemma cwp_array_create (Q : ptr -> nat -> cP) n f : (0 <= n)%Z ->
  ((∀ a f', ⌈f <= f'⌉ -∗ array a (replicate (Z.to_nat n) None) -∗ Q (Some a) f') ∧ (∀ f', ⌈f < f'⌉ -∗ Q None f')) ⊢ cwp CInv (rc_string_array_create n) f Q.
Proof.
  intros Hn. iIntros "HQ". unfold rc_string_array_create. step. iApply cwp_new_obj. iSplit.
  - iIntros (a f1) "%Hf1 H1". step. destruct (Z.gtb_spec n 0) as [Hg|Hg].
    + step. iApply cwp_new_obj. iSplit.
      * iIntros (p f2) "%Hf2 H2". step. iApply (cwp_set_obj with "H1"). iIntros (f3) "%Hf3 H1". step. sub. iApply (cwp_init_cells OCells with "H2"); [apply is_array_cells|by rewrite replicate_length|].
        iIntros (f4) "%Hf4 H2". iApply cwp_ret. iApply upd_intro. iDestruct "HQ" as "[HQ _]". iApply "HQ"; [iPureIntro; lia|]. iExists (Some p). rewrite replicate_length. rewrite Z2Nat.id; [|lia]. iFrame "H1".
        simpl. unfold slots. rewrite refs_replicate cells_replicate no_slots. rewrite drop_ge; [|rewrite replicate_length; lia]. rewrite app_nil_r. iFrame "H2".
      * iIntros (f2) "%Hf2". step. iApply (cwp_free_obj with "H1"). iIntros (f3) "%Hf3". step. iApply cwp_ret. iApply upd_intro. iDestruct "HQ" as "[_ HQ]". iApply "HQ". iPureIntro. lia.
    + step. iApply (cwp_set_obj with "H1"). iIntros (f3) "%Hf3 H1". step. iApply cwp_ret. iApply upd_intro. iDestruct "HQ" as "[HQ _]". iApply "HQ"; [iPureIntro; lia|]. assert (n = 0%Z) as -> by lia. iExists None. simpl. iFrame "H1". done.
  - iIntros (f1) "%Hf1". step. iApply cwp_ret. iApply upd_intro. iDestruct "HQ" as "[_ HQ]". by iApply "HQ".
Qed.
Lemma cwp_arr_fields {A} (Q : A -> nat -> cP) a sp n (k : ptr * Z -> code A) f :
  lift (a ↦o OArr sp n) -∗ (∀ f', ⌈f <= f'⌉ -∗ lift (a ↦o OArr sp n) -∗ cwp CInv (k (sp, n)) f' Q) -∗ cwp CInv (Act (arr_fields a) k) f Q.
Proof.
  iIntros "H1 H2". iApply (cwp_det _ _ _ _ (fun y => y = (sp, n)) _ (a ↦o OArr sp n)%I with "H1").
  - intros f'. iIntros "H". unfold arr_fields. iApply wpi_bind. iApply (wpi_get_obj with "H"). iIntros "H". iApply wpi_ret. by iFrame "H".
  - iIntros (y f') "%Hy H". destruct Hy as [Hf ->]. by iApply ("H2" with "[//] H").
Qed.
Lemma cwp_arr_cells {A} (Q : A -> nat -> cP) a p n (k : positive -> code A) f :
  lift (a ↦o OArr (Some p) n) -∗ (∀ f', ⌈f <= f'⌉ -∗ lift (a ↦o OArr (Some p) n) -∗ cwp CInv (k p) f' Q) -∗ cwp CInv (Act (arr_cells a) k) f Q.
Proof.
  iIntros "H1 H2". iApply (cwp_det _ _ _ _ (fun y => y = p) _ (a ↦o OArr (Some p) n)%I with "H1").
  - intros f'. iIntros "H". unfold arr_cells, arr_fields. iApply wpi_bind. iApply wpi_bind. iApply (wpi_get_obj with "H"). iIntros "H". iApply wpi_ret. iApply wpi_ret. by iFrame "H".
  - iIntros (y f') "%Hy H". destruct Hy as [Hf ->]. by iApply ("H2" with "[//] H").
Qed.
Lemma cwp_free_ex {A} (Q : A -> nat -> cP) p (k : unit -> code A) f :
  lift (∃ o, p ↦o o) -∗ (∀ f', ⌈f <= f'⌉ -∗ cwp CInv (k tt) f' Q) -∗ cwp CInv (Act (free_obj p) k) f Q.
Proof. iIntros "H1 H2". rewrite lift_exist. iDestruct "H1" as "(%o&H1)". by iApply (cwp_free_obj with "H1"). Qed.
Lemma cwp_array_destroy (Q : unit -> nat -> cP) a l f : array a l -∗ (∀ f', ⌈f <= f'⌉ -∗ Q tt f') -∗ cwp CInv (rc_string_array_destroy (Some a)) f Q.
Proof.
  iIntros "(%sp&H1&H2) HQ". unfold rc_string_array_destroy. step. iApply (cwp_arr_fields with "H1"). iIntros (f1) "%Hf1 H1". step. destruct sp as [p|].
  - sub. sub. iApply (cwp_release_all OCells with "H2"); [apply is_array_cells|by rewrite Nat2Z.id refs_length|]. iIntros (f2) "%Hf2 H2". iApply (cwp_free_ex with "H2"). iIntros (f3) "%Hf3".
    iApply cwp_ret. iApply upd_intro. iApply (cwp_free_obj with "H1"). iIntros (f4) "%Hf4". iApply cwp_ret. iApply upd_intro. iApply "HQ". iPureIntro. lia.
  - iDestruct "H2" as %->. simpl. step. iApply (cwp_free_obj with "H1"). iIntros (f4) "%Hf4". iApply cwp_ret. iApply upd_intro. iApply "HQ". iPureIntro. lia.
Qed.
(** THANDLE_MOVE of a reference to string_array[i], and then the rest. *)
Lemma cwp_put {A} (Q : A -> nat -> cP) a l i h s (K : positive -> code A) (k : code A) f : i < length l -> (forall p, K p = pbind (move_to_cell p i (Some h)) (fun _ => k)) ->
  array a l -∗ own_ref h (TheString s) -∗ (∀ f', ⌈f <= f'⌉ -∗ array a (<[i := Some (h, s)]> l) -∗ cwp CInv k f' Q) -∗
  cwp CInv (Act (arr_cells a) K) f Q.
Proof.
  intros Hi HK. iIntros "(%sp&H1&H2) H3 HQ". destruct sp as [p|]; [|iDestruct "H2" as %->; simpl in Hi; lia].
  iApply (cwp_arr_cells with "H1"). iIntros (f1) "%Hf1 H1". rewrite HK. sub. iApply (cwp_move_to_cell OCells with "H2 H3"); [apply is_array_cells|by rewrite refs_length|]. iIntros (f2) "%Hf2 H2". iApply "HQ"; [iPureIntro; lia|].
  iExists (Some p). rewrite insert_length. iFrame "H1". rewrite refs_insert. iFrame "H2".
Qed.
Lemma cwp_look_strings (Q : list sref -> nat -> cP) p l i n f : i + n = length l ->
  slots OCells p (refs_in l) -∗ (∀ f', ⌈f <= f'⌉ -∗ slots OCells p (refs_in l) -∗ Q (drop i l) f') -∗ cwp CInv (look_strings p i n) f Q.
Proof.
  revert i f Q. induction n as [|n IH]; intros i f Q Hi; iIntros "H HQ"; simpl.
  - iApply cwp_ret. iApply upd_intro. iSpecialize ("HQ" with "[//] H"). rewrite drop_ge; [done|lia].
  - destruct (lookup_lt_is_Some_2 l i ltac:(lia)) as [x Hx]. assert (refs_in l !! i = Some (option_map (fun x => (fst x, TheString (snd x))) x)) as Hx'. { unfold refs_in. rewrite list_lookup_fmap Hx. done. }
    iDestruct "H" as "[H1 H2]". step. iApply (cwp_cell OCells is_array_cells with "H1"); [by apply cells_with_lookup|]. iIntros (f1) "%Hf1 H1".
    rewrite (drop_S _ _ _ Hx). destruct x as [[h s]|]; simpl; step.
    + rewrite (big_sepL_lookup_acc _ _ _ _ Hx'). simpl. iDestruct "H2" as "[H3 H2]". iApply (cwp_string with "H3"). iIntros (f2) "%Hf2 H3". iSpecialize ("H2" with "H3"). step. sub.
      iApply (IH with "[H1 H2]"); [lia|iFrame "H1 H2"|]. iIntros (f3) "%Hf3 H". iApply cwp_ret. iApply upd_intro. iApply ("HQ" with "[] H"). iPureIntro. lia.
    + sub. iApply (IH with "[H1 H2]"); [lia|iFrame "H1 H2"|]. iIntros (f3) "%Hf3 H". iApply cwp_ret. iApply upd_intro. iApply ("HQ" with "[] H"). iPureIntro. lia.
Qed.
Lemma cwp_look_at (Q : option (positive * list sref) -> nat -> cP) a l f : array a l -∗ (∀ f', ⌈f <= f'⌉ -∗ array a l -∗ Q (Some (a, l)) f') -∗ cwp CInv (look_at (Some a)) f Q.
Proof.
  iIntros "(%sp&H1&H2) HQ". unfold look_at, look. sub. step. iApply (cwp_arr_fields with "H1"). iIntros (f1) "%Hf1 H1". destruct sp as [p|]; step.
  - iApply (cwp_look_strings with "H2"); [by rewrite Nat2Z.id|]. iIntros (f2) "%Hf2 H2". iApply cwp_ret. iApply upd_intro. rewrite drop_0. iApply "HQ"; [iPureIntro; lia|]. iExists (Some p). iFrame "H1 H2".
  - iDestruct "H2" as %->. iApply cwp_ret. iApply upd_intro. iApply cwp_ret. iApply upd_intro. iApply ("HQ" with "[//]"). iExists None. iFrame "H1". done.
Qed.
Lemma spec_array_create n f : allowed (ArrayCreate n) -> ⊢ goal_of (ArrayCreate n) f.
Proof.
  intros Ha. unfold run. sub. iApply cwp_array_create; [apply Ha|]. iSplit.
  - iIntros (a f1) "%Hf1 H". sub. iApply (cwp_look_at with "H"). iIntros (f2) "%Hf2 H". iApply (finish (ArrayCreate n)); [lia|done|]. simpl. rewrite hold_one. iFrame "H".
  - iIntros (f1) "%Hf1". simpl. step. by iApply (finish (ArrayCreate n)); [lia| |].
Qed.
Lemma spec_array_destroy a f : hold (hold_arr a) ⊢ goal_of (ArrayDestroy a) f.
Proof.
  iIntros "H". unfold run. destruct a as [[a l]|]; simpl; [|step; by iApply (finish (ArrayDestroy None))].
  rewrite hold_one. sub. iApply (cwp_array_destroy with "H"). iIntros (f1) "%Hf1". by iApply (finish (ArrayDestroy (Some (a, l)))).
Qed.
Lemma spec_array_read a l f : own (Arr a l) ⊢ goal_of (ArrayRead a l) f.
Proof. iIntros "H". unfold run. sub. iApply (cwp_look_at with "H"). iIntros (f1) "%Hf1 H". iApply (finish (ArrayRead a l)); [done|done|]. simpl. rewrite hold_one. iFrame "H". Qed.
Lemma spec_array_put a l i h s f : allowed (ArrayPut a l i h s) -> hold [Arr a l; Ref h (TheString s)] ⊢ goal_of (ArrayPut a l i h s) f.
Proof.
  intros Ha. rewrite !hold_cons. iIntros "(H1&H2&_)". unfold run. step. iApply (cwp_put with "H1 H2"); [done|intros p; by rewrite pbind_ret|]. iIntros (f1) "%Hf1 H". iApply (finish (ArrayPut a l i h s)); [done|done|]. simpl. rewrite hold_one. iFrame "H".
Qed.

(** Tuples. *)
Lemma cwp_init_tuples (Q : unit -> nat -> cP) mk p c i n k f : is_array mk -> (i + n) * k = length c -> take (i * k) c = replicate (i * k) (Some None) ->
  lift (p ↦o mk c) -∗ (∀ f', ⌈f <= f'⌉ -∗ lift (p ↦o mk (replicate (length c) (Some None))) -∗ Q tt f') -∗ cwp CInv (init_tuples p i n k) f Q.
Proof.
  intros Hmk. revert c i f. induction n as [|n IH]; intros c i f Hl Ht; iIntros "H HQ"; simpl.
  - iApply cwp_ret. iApply upd_intro. iApply ("HQ" with "[//]"). rewrite take_ge in Ht; [|lia]. rewrite Ht. by rewrite replicate_length.
  - sub. iApply (cwp_init_cells mk Hmk with "H"); [lia|]. iIntros (f1) "%Hf1 H". rewrite Ht.
    assert (length (replicate (i * k) (Some None : option ptr) ++ replicate k (Some None) ++ drop (i * k + k) c) = length c) as Hlen. { rewrite !app_length !replicate_length drop_length. lia. }
    iApply (IH with "H").
    + rewrite Hlen. lia.
    + rewrite assoc_L -replicate_add. replace (S i * k) with (i * k + k) by lia. apply take_app_alt. by rewrite replicate_length.
    + rewrite Hlen. iIntros (f2) "%Hf2 H". iApply ("HQ" with "[] H"). iPureIntro. lia.
Qed.
Lemma cwp_release_tuples (Q : unit -> nat -> cP) mk p l i n k f : is_array mk -> (i + n) * k = length l -> take (i * k) l = replicate (i * k) None ->
  slots mk p l -∗ (∀ f', ⌈f <= f'⌉ -∗ slots mk p (replicate (length l) None) -∗ Q tt f') -∗ cwp CInv (release_tuples p i n k) f Q.
Proof.
  intros Hmk. revert l i f. induction n as [|n IH]; intros l i f Hl Ht; iIntros "H HQ"; simpl.
  - iApply cwp_ret. iApply upd_intro. iApply ("HQ" with "[//]"). rewrite take_ge in Ht; [|lia]. rewrite Ht. by rewrite replicate_length.
  - sub. iApply (cwp_release_cells mk Hmk with "H"); [lia|]. iIntros (f1) "%Hf1 H". rewrite Ht.
    assert (length (replicate (i * k) (None : ref) ++ replicate k None ++ drop (i * k + k) l) = length l) as Hlen. { rewrite !app_length !replicate_length drop_length. lia. }
    iApply (IH with "H").
    + rewrite Hlen. lia.
    + rewrite assoc_L -replicate_add. replace (S i * k) with (i * k + k) by lia. apply take_app_alt. by rewrite replicate_length.
    + rewrite Hlen. iIntros (f2) "%Hf2 H". iApply ("HQ" with "[] H"). iPureIntro. lia.
Qed.
Lemma spec_tuple_create k n f : allowed (TupleCreate k n) -> ⊢ goal_of (TupleCreate k n) f.
Proof.
  intros Ha. unfold run, tuple_array_create. step. iApply cwp_new_obj. iSplit.
  - iIntros (t f1) "%Hf1 H". step. sub. sub. iApply (cwp_init_tuples _ (OTup n) with "H"); [apply is_array_tup|by rewrite replicate_length|done|]. iIntros (f2) "%Hf2 H". rewrite replicate_length.
    iApply cwp_ret. iApply upd_intro. iApply (finish (TupleCreate k n)); [lia|done|]. simpl. rewrite hold_one. simpl. rewrite replicate_length. iSplit; [done|]. unfold slots. rewrite cells_replicate no_slots. iFrame "H".
  - iIntros (f1) "%Hf1". step. iApply (finish (TupleCreate k n)); [lia|intros _; lia|done].
Qed.
Lemma cwp_tup_count {A} (Q : A -> nat -> cP) t n c (k : Z -> code A) f :
  lift (t ↦o OTup n c) -∗ (∀ f', ⌈f <= f'⌉ -∗ lift (t ↦o OTup n c) -∗ cwp CInv (k n) f' Q) -∗ cwp CInv (Act (bind (get_obj t) (fun o => match o with OTup n _ => ret n | _ => undef end)) k) f Q.
Proof.
  iIntros "H1 H2". iApply (cwp_det _ _ _ _ (fun y => y = n) _ (t ↦o OTup n c)%I with "H1").
  - intros f'. iIntros "H". iApply wpi_bind. iApply (wpi_get_obj with "H"). iIntros "H". iApply wpi_ret. by iFrame "H".
  - iIntros (y f') "%Hy H". destruct Hy as [Hf ->]. by iApply ("H2" with "[//] H").
Qed.
Lemma spec_tuple_destroy t k f : allowed (TupleDestroy t k) -> hold (hold_tup t) ⊢ goal_of (TupleDestroy t k) f.
Proof.
  intros Ha. iIntros "H". unfold run. destruct t as [[[[t k'] n] l]|]; simpl; [|step; by iApply (finish (TupleDestroy None k))].
  simpl in Ha. subst k'. rewrite hold_one. iDestruct "H" as "(%Hl&H1&H2)". step. iApply (cwp_tup_count with "H1"). iIntros (f1) "%Hf1 H1". step. sub. sub.
  iApply (cwp_release_tuples _ (OTup n) _ l with "[H1 H2]"); [apply is_array_tup|by rewrite Hl|done|iFrame "H1 H2"|]. iIntros (f2) "%Hf2 [H1 H2]". rewrite no_slots. iClear "H2". iApply (cwp_free_obj with "H1"). iIntros (f3) "%Hf3".
  iApply cwp_ret. iApply upd_intro. iApply (finish (TupleDestroy (Some (t, k, n, l)) k)); [lia|done|done].
Qed.
Lemma spec_tuple_put t k n l i h w f : allowed (TuplePut t k n l i h w) -> hold [Tup t k n l; Ref h w] ⊢ goal_of (TuplePut t k n l i h w) f.
Proof.
  intros Ha. rewrite !hold_cons. iIntros "((%Hl&H1)&H2&_)". unfold run. sub. iApply (cwp_move_to_cell (OTup n) with "H1 H2"); [apply is_array_tup|done|]. iIntros (f1) "%Hf1 H".
  iApply (finish (TuplePut t k n l i h w)); [done|done|]. simpl. rewrite hold_one. simpl. rewrite insert_length. by iFrame "H".
Qed.
Lemma cwp_look_handles (Q : list ptr -> nat -> cP) mk p (l : list ref) i n f : is_array mk -> i + n = length l ->
  lift (p ↦o mk (cells_with l)) -∗ (∀ f', ⌈f <= f'⌉ -∗ lift (p ↦o mk (cells_with l)) -∗ Q (map (option_map fst) (drop i l)) f') -∗ cwp CInv (look_handles p i n) f Q.
Proof.
  intros Hmk. revert i f Q. induction n as [|n IH]; intros i f Q Hi; iIntros "H HQ"; simpl.
  - iApply cwp_ret. iApply upd_intro. iSpecialize ("HQ" with "[//] H"). rewrite drop_ge; [done|lia].
  - destruct (lookup_lt_is_Some_2 l i ltac:(lia)) as [x Hx]. step. iApply (cwp_cell mk Hmk with "H"); [by apply cells_with_lookup|]. iIntros (f1) "%Hf1 H". step. sub. iApply (IH with "H"); [lia|].
    iIntros (f2) "%Hf2 H". iApply cwp_ret. iApply upd_intro. rewrite (drop_S _ _ _ Hx). iApply ("HQ" with "[] H"). iPureIntro. lia.
Qed.
Lemma spec_tuple_read t k n l f : own (Tup t k n l) ⊢ goal_of (TupleRead t k n l) f.
Proof.
  iIntros "(%Hl&H1&H2)". unfold run. step. iApply (cwp_tup_count with "H1"). iIntros (f1) "%Hf1 H1". step. sub. iApply (cwp_look_handles _ (OTup n) with "H1"); [apply is_array_tup|done|]. iIntros (f2) "%Hf2 H1".
  iApply (finish (TupleRead t k n l)); [lia|done|]. simpl. rewrite hold_one. simpl. iSplit; [done|]. iFrame "H1 H2".
Qed.
