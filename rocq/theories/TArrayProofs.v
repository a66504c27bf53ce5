(** Proofs about TArrayModel.v. *)
From Verif Require Import SepAll.
From Verif Require Import Common Block CMem CArr TArrayModel TArraySpec.
Local Open Scope Z_scope.
Local Open Scope cmonad_scope.

Notation iP := (hPropI obj).
Definition is_t (h : positive) (t : tarr) : iP :=
  (∃ p, h ↦o OTarray (TData (Some p) (cap_of t) (has_cleanup t)) ∗ arr_at p (elems t) ∗ ⌈0 < cap_of t <= UINT32_MAX⌉)%I.
Notation all := (all_of is_t).

Lemma is_t_excl h t t' : is_t h t -∗ is_t h t' -∗ False.
Proof. iIntros "(%&H1&_) (%&H2&_)". iDestruct (obj_ne with "H1 H2") as %[]. done. Qed.

Lemma wpi_get_t h t f (Q : tdata -> nat -> iP) : h ↦o OTarray t -∗ (h ↦o OTarray t -∗ Q t f) -∗ wpi (get_t h) f Q.
Proof. iIntros "H1 H2". iApply wpi_bind. iApply (wpi_get_obj with "H1"). iIntros "H1". iApply wpi_ret. by iApply "H2". Qed.
Lemma wpi_set_t h t t' f (Q : unit -> nat -> iP) : h ↦o OTarray t -∗ (h ↦o OTarray t' -∗ Q tt f) -∗ wpi (set_t h t') f Q.
Proof. iIntros "H1 H2". iApply wpi_bind. iApply (wpi_get_t with "H1"). iIntros "H1". by iApply (wpi_set_obj with "H1"). Qed.
Lemma wpi_free_t h t f (Q : unit -> nat -> iP) : h ↦o OTarray t -∗ Q tt f -∗ wpi (free_t h) f Q.
Proof. iIntros "H1 H2". iApply wpi_bind. iApply (wpi_get_t with "H1"). iIntros "H1". by iApply (wpi_free_obj with "H1"). Qed.

Lemma double_ok fuel : forall old cap, 0 < old < cap -> cap <= 2 ^ 31 -> cap <= old * 2 ^ Z.of_nat fuel ->
  exists new, double_until fuel old cap = Some new /\ grown old cap new.
Proof.
  induction fuel as [|fuel IH]; intros old cap Ho Hc Hf; simpl.
  { change (2 ^ Z.of_nat 0) with 1 in Hf. lia. }
  assert (u32 (old * 2) = old * 2) as ->. { unfold u32. apply Z.mod_small. change UINT32_MOD with (2 ^ 31 * 2). lia. }
  rewrite Nat2Z.inj_succ Z.pow_succ_r in Hf; last lia. destruct (Z.ltb_spec (old * 2) cap).
  - destruct (IH (old * 2) cap) as (new&->&(k&Hk&->)&Hb); [lia|done|lia|]. exists (old * 2 * 2 ^ k). split; [done|]. split; [|done].
    exists (k + 1). split; [lia|]. rewrite Z.pow_add_r; [|lia|lia]. lia.
  - exists (old * 2). split; [done|]. split; [|lia]. exists 1. lia.
Qed.
#[local] Arguments double_until : simpl never.
Lemma size_2_none n sz : size_2 n sz = None -> UINT64_MAX < n * sz.
Proof. unfold size_2. destruct (decide _); [done|lia]. Qed.

Definition post (szT : Z) (o : op) (a : arrays) (f : nat) (r : res) (f' : nat) (a' : arrays) : Prop :=
  effect o a r a' \/ (((f < f')%nat \/ too_big szT o a) /\ failed o a r a').

Lemma wpi_create szT cap cl a f : is_u32 cap -> all a ⊢ wpi (run szT (Create cap cl)) f (fun r f' => ∃ a', ⌈post szT (Create cap cl) a f r f' a'⌉ ∗ all a').
Proof.
  intros Hal. iIntros "Ha". iApply wpi_bind.
  unfold TARRAY_CREATE_WITH_CAPACITY_AND_CLEANUP. destruct (decide (cap = 0)) as [->|Hne].
  { iApply wpi_ret. iApply wpi_ret. iExists a. iFrame. iPureIntro. left. simpl. done. }
  iApply wpi_bind. iApply wpi_new_obj. iSplit.
  2: { iApply wpi_ret. iApply wpi_ret. iExists a. iFrame. iPureIntro. right. split; [left; lia|done]. }
  iIntros (h) "Hh". iApply wpi_bind. iApply wpi_arr_alloc. iSplit.
  + iIntros (p) "Hp". iApply wpi_bind. iApply (wpi_set_t with "Hh"). iIntros "Hh". iApply wpi_ret. iApply wpi_ret.
    set (t := TArr (replicate (Z.to_nat cap) None) cl). iAssert (is_t h t) with "[Hh Hp]" as "Ht".
    { iExists p. iFrame "Hp". assert (cap_of t = cap) as E. { unfold cap_of, t. simpl. rewrite replicate_length. unfold is_u32 in Hal. lia. }
      rewrite E. iFrame "Hh". iPureIntro. unfold is_u32 in Hal. lia. }
    iDestruct (all_add with "Ht Ha") as (Hn) "Ha"; [apply is_t_excl|]. iExists _. iFrame. iPureIntro. left. simpl. rewrite decide_False //. eauto.
  + iIntros (f' [Hf Hc]). iApply wpi_bind. iApply (wpi_free_t with "Hh"). iApply wpi_ret. iApply wpi_ret. iExists a. iFrame. iPureIntro. right. split; [|done].
    destruct Hc as [?|Hc]; [by left|right]. by apply size_2_none.
Qed.
Lemma run_default szT : run szT CreateDefault = run szT (Create 1 false).
Proof. done. Qed.

Lemma step szT o a f : allowed a o -> all a ⊢ wpi (run szT o) f (fun r f' => ∃ a', ⌈post szT o a f r f' a'⌉ ∗ all a').
Proof.
  intros Hal. iIntros "Ha". destruct o as [cap cl| |h|h cap|h i|h i v]; [| |iApply wpi_bind..].
  - by iApply (wpi_create with "Ha").
  - rewrite run_default. iApply (wpi_wand with "[Ha]"); [by iApply (wpi_create with "Ha")|]. iIntros (r f') "_ (%a'&%Hp&Ha)". iExists a'. iFrame. iPureIntro. unfold post in *. simpl in *. by rewrite Z.mul_1_l in Hp.
  - destruct h as [h|]; simpl in Hal.
    2: { iApply wpi_ret. iApply wpi_ret. iExists a. iFrame. iPureIntro. by left. }
    destruct Hal as [t Ht]. iDestruct (all_take with "Ha") as "[(%p&Hh&Hp&_) Ha]"; [done|]. iApply wpi_bind. iApply (wpi_get_t with "Hh"). iIntros "Hh". simpl.
    iApply wpi_bind. iApply (wpi_wand _ _ (fun r f' => ⌈r = (if has_cleanup t then Some (elems t) else None) /\ f' = f⌉ ∗ arr_at p (elems t))%I with "[Hp]").
    { destruct (has_cleanup t); [iApply wpi_bind; iApply (wpi_arr_cells with "Hp"); iIntros "Hp"|]; iApply wpi_ret; by iFrame. }
    iIntros (r f') "_ [%E Hp]". destruct E as [-> ->]. iApply wpi_bind. iApply (wpi_arr_free with "Hp"). iApply wpi_bind. iApply (wpi_free_t with "Hh"). iApply wpi_ret. iApply wpi_ret.
    iExists (delete h a). iFrame. iPureIntro. left. simpl. eauto.
  - destruct h as [h|]; simpl in Hal.
    2: { iApply wpi_ret. iApply wpi_ret. iExists a. iFrame. iPureIntro. by left. }
    destruct Hal as [[t Ht] Hc]. iDestruct (all_open with "Ha") as "[(%p&Hh&Hp&%Hcap) Ha]"; [done|].
    iAssert (∀ e', ⌈0 < Z.of_nat (length e') <= UINT32_MAX⌉ -∗ ∀ p', h ↦o OTarray (TData (Some p') (Z.of_nat (length e')) (has_cleanup t)) -∗ arr_at p' e' -∗
      all (<[h := TArr e' (has_cleanup t)]> a))%I with "[Ha]" as "Ha".
    { iIntros (e' He') "%p' Hh Hp". iApply "Ha". iExists p'. by iFrame. }
    iApply wpi_bind. iApply (wpi_get_t with "Hh"). iIntros "Hh". simpl.
    destruct (Z.leb_spec cap (cap_of t)) as [Hle|Hgt].
    { iApply wpi_ret. iApply wpi_ret. iSpecialize ("Ha" $! (elems t) with "[//] Hh Hp"). iExists a. rewrite insert_id; [|by destruct t]. iFrame. iPureIntro. left. simpl.
      exists t. split; [done|]. rewrite decide_True //. }
    change (u32 (Z.shiftl 1 31)) with (2 ^ 31). destruct (Z.ltb_spec (2 ^ 31) cap) as [Hbig|Hsmall].
    { iApply wpi_ret. iApply wpi_ret. iSpecialize ("Ha" $! (elems t) with "[//] Hh Hp"). iExists a. rewrite insert_id; [|by destruct t]. iFrame. iPureIntro. left. simpl.
      exists t. split; [done|]. rewrite decide_False; last lia. rewrite decide_True //. }
    destruct (double_ok 40 (cap_of t) cap) as (new&->&Hnew); [lia|done| |].
    { transitivity (1 * 2 ^ Z.of_nat 40). { change (2 ^ Z.of_nat 40) with (2 ^ 31 * 512). lia. } apply Z.mul_le_mono_nonneg_r; lia. }
    assert (cap_of t < new) as Hlt. { destruct Hnew as [_ ?]. lia. }
    iApply wpi_bind. iApply (wpi_arr_realloc with "Hp"). iSplit.
    + iIntros (p') "Hp". iApply wpi_bind. iApply (wpi_set_t with "Hh"). iIntros "Hh". iApply wpi_bind. iApply (wpi_set_t with "Hh"). iIntros "Hh". iApply wpi_ret. iApply wpi_ret.
      set (e' := elems t ++ replicate (Z.to_nat (new - cap_of t)) None).
      assert (take (Z.to_nat new) (elems t) ++ replicate (Z.to_nat new - length (elems t)) None = e') as ->.
      { unfold e', cap_of in *. rewrite take_ge; last lia. f_equal. f_equal. lia. }
      assert (Z.of_nat (length e') = new) as He'. { unfold e', cap_of in *. rewrite app_length replicate_length. lia. }
      rewrite -{1}He'. iSpecialize ("Ha" $! e' with "[] Hh Hp"). { iPureIntro. rewrite He'. destruct Hnew as [_ ?]. unfold UINT32_MAX. lia. }
      iExists _. iFrame. iPureIntro. left. simpl. exists t. split; [done|]. rewrite decide_False; last lia. rewrite decide_False; last lia. exists new. done.
    + iIntros (f' [Hf Hcase]) "Hp". iApply wpi_ret. iApply wpi_ret. iSpecialize ("Ha" $! (elems t) with "[//] Hh Hp"). iExists a. rewrite insert_id; [|by destruct t]. iFrame. iPureIntro. right.
      split; [|done]. destruct Hcase as [?|Hcase]; [by left|right]. apply size_2_none in Hcase. simpl. eauto.
  - destruct Hal as (t&v&Ht&Hv). iDestruct (all_open with "Ha") as "[(%p&Hh&Hp&%Hcap) Ha]"; [done|]. iApply wpi_bind. iApply (wpi_get_t with "Hh"). iIntros "Hh". simpl.
    iApply (wpi_arr_get with "Hp"); [done|]. iIntros "Hp". iApply wpi_ret. iExists a. iSpecialize ("Ha" $! t with "[Hh Hp]"); [iExists p; by iFrame|]. rewrite insert_id //. iFrame.
    iPureIntro. left. simpl. exists t, v. done.
  - destruct Hal as (t&Ht&Hi). iDestruct (all_open with "Ha") as "[(%p&Hh&Hp&%Hcap) Ha]"; [done|]. iApply wpi_bind. iApply (wpi_get_t with "Hh"). iIntros "Hh". simpl.
    iApply (wpi_arr_set with "Hp"); [done|]. iIntros "Hp". iApply wpi_ret. iExists _. iSpecialize ("Ha" $! (TArr (<[i := Some v]> (elems t)) (has_cleanup t)) with "[Hh Hp]").
    { iExists p. assert (cap_of (TArr (<[i := Some v]> (elems t)) (has_cleanup t)) = cap_of t) as -> by (by unfold cap_of; cbn [elems]; rewrite insert_length). by iFrame. }
    iFrame. iPureIntro. left. simpl. exists t. done.
Qed.
Definition reps := SepAll.reps is_t.
Lemma step_ok szT o s a : reps s a -> allowed a o ->
  exists r s' a', run szT o s = Done (r, s') /\ reps s' a' /\ (effect o a r a' \/ (((fails s < fails s')%nat \/ too_big szT o a) /\ failed o a r a')).
Proof. intros R Hal. by apply (reps_step is_t (run szT o) s a (fun r f' a' => post szT o a (fails s) r f' a') (step szT o a (fails s) Hal)). Qed.
