(** Proofs about FlagsModel.v. *)
From Verif Require Import Common Block CMem CMemFacts CStr CStrFacts Sprintf SprintfFacts FlagsModel FlagsSpec.
Local Open Scope Z_scope.
Local Open Scope cmonad_scope.

Lemma subset_land f v : 0 <= f -> (Z.land v f =? f) = true <-> subset_of f v.
Proof.
  intros Hf. rewrite Z.eqb_eq. split.
  - intros H i Hi Hb. rewrite <-H, Z.land_spec in Hb. apply andb_true_iff in Hb. tauto.
  - intros H. apply Z.bits_inj'. intros i Hi. rewrite Z.land_spec. destruct (Z.testbit f i) eqn:E; [|by rewrite andb_false_r]. by rewrite (H i Hi E).
Qed.
Lemma land_u32_not v f : is_u32 v -> Z.land v (u32 (Z.lnot f)) = Z.ldiff v f.
Proof.
  intros Hv. unfold u32. change UINT32_MOD with (2 ^ 32). rewrite <-Z.land_ones by lia.
  apply Z.bits_inj'. intros i Hi. rewrite Z.land_spec, Z.land_spec, Z.lnot_spec, Z.ldiff_spec by done.
  destruct (decide (i < 32)); [rewrite Z.ones_spec_low by lia; by rewrite andb_true_r|].
  rewrite (Z.ones_spec_high 32 i) by lia. rewrite andb_false_r, andb_false_r. destruct (decide (v = 0)) as [->|]; [by rewrite Z.bits_0|].
  rewrite (Z.bits_above_log2 v i); [done|unfold is_u32 in *; lia|]. assert (Z.log2 v < 32); [|lia]. apply Z.log2_lt_pow2; unfold is_u32, UINT32_MAX in *; lia.
Qed.
Lemma ldiff_u32 v f : is_u32 v -> is_u32 (Z.ldiff v f).
Proof.
  intros [H1 H2]. assert (0 <= Z.ldiff v f) by (apply Z.ldiff_nonneg; auto). split; [done|].
  transitivity v; [|done]. assert (v = Z.lor (Z.ldiff v f) (Z.land v f)) as E.
  { apply Z.bits_inj'. intros i Hi. rewrite Z.lor_spec, Z.ldiff_spec, Z.land_spec. by destruct (Z.testbit v i), (Z.testbit f i). }
  assert (v = Z.ldiff v f + Z.land v f) as E2; [|assert (0 <= Z.land v f) by (apply Z.land_nonneg; auto); lia].
  rewrite Z.add_nocarry_lxor; [rewrite E at 1; symmetry; apply Z.lxor_lor|];
    apply Z.bits_inj'; intros i Hi; rewrite Z.land_spec, Z.ldiff_spec, Z.land_spec, Z.bits_0; by destruct (Z.testbit v i), (Z.testbit f i).
Qed.
Lemma ldiff_lor v a b : Z.ldiff v (Z.lor a b) = Z.ldiff (Z.ldiff v a) b.
Proof. apply Z.bits_inj'. intros i Hi. rewrite !Z.ldiff_spec, Z.lor_spec. by destruct (Z.testbit v i), (Z.testbit a i), (Z.testbit b i). Qed.
Lemma ldiff_0 v : Z.ldiff v 0 = v.
Proof. apply Z.ldiff_0_r. Qed.

(** What is printed for the flags of [l] after something (nothing, if [first]) was printed. *)
Definition after (first : bool) (l : list bytes) : bytes :=
  match l with [] => [] | _ => (if first then [] else bar) ++ joined l end.
Lemma joined_cons x l : joined (x :: l) = x ++ after false l.
Proof. destruct l; simpl; [by rewrite app_nil_r|done]. Qed.
Lemma after_app first l l' : after first (l ++ l') = after first l ++ after (match l with [] => first | _ => false end) l'.
Proof.
  revert first. induction l as [|x l IH]; intros first; [done|]. cbn [app]. unfold after at 1 2. rewrite !joined_cons, IH, <-!app_assoc.
  by destruct l.
Qed.

Lemma all_values_ok ds : forall first v, is_u32 v -> Forall (fun d => 0 <= d.1) ds ->
  exists sel, selects ds.*1 v sel /\
    all_values ds first v = (after first (listed ds.*2 sel), match listed ds.*2 sel with [] => first | _ => false end, Z.ldiff v (listed_bits ds.*1 sel)).
Proof.
  induction ds as [|[f n] ds IH]; intros first v Hv Hds.
  - exists []. split; [split; [done|]; intros i; by rewrite lookup_nil|]. simpl. by rewrite ldiff_0.
  - apply Forall_cons in Hds as [Hf Hds]. cbn [fst] in Hf. cbn [all_values]. unfold separator_and_value.
    destruct (Z.land v f =? f) eqn:E.
    + rewrite land_u32_not by done. destruct (IH false (Z.ldiff v f) (ldiff_u32 v f Hv) Hds) as (sel&[Hl Hsel]&->).
      exists (true :: sel). split.
      * split; [by simpl; rewrite Hl|]. intros [|i] f' b Hf' Hb; simpl in Hf', Hb; simplify_eq.
        -- simpl. rewrite ldiff_0. rewrite <-subset_land by done. by rewrite E.
        -- simpl. rewrite ldiff_lor. by apply Hsel.
      * cbn [fmap list_fmap fst snd listed listed_bits app]. rewrite ldiff_lor. unfold after at 2. rewrite joined_cons. by destruct (listed ds.*2 sel).
    + destruct (IH first v Hv Hds) as (sel&[Hl Hsel]&->). exists (false :: sel). split.
      * split; [by simpl; rewrite Hl|]. intros [|i] f' b Hf' Hb; simpl in Hf', Hb; simplify_eq.
        -- simpl. rewrite ldiff_0. rewrite <-subset_land by done. by rewrite E.
        -- simpl. by apply Hsel.
      * done.
Qed.

Lemma hex_digit_ok d : 0 <= d < 16 -> is_hex (hex_digit d) /\ digit_value (hex_digit d) = d.
Proof. intros Hd. unfold hex_digit, digit_value, is_hex. destruct (Z.ltb_spec d 10); (destruct (Z.ltb_spec (if d <? 10 then 48 + d else 87 + d) 58) || idtac); repeat case_match; lia. Qed.
Ltac Zify.zify_post_hook ::= Z.div_mod_to_equations.
Lemma hex8_ok z : is_u32 z -> unknown_text z (unknown_flag ++ hex8 z ++ [41]).
Proof.
  intros Hz. exists ((fun i => hex_digit (z / 16 ^ i mod 16)) <$> [7; 6; 5; 4; 3; 2; 1; 0]). split; [by unfold hex8; rewrite <-!app_assoc|]. split; [done|].
  assert (forall i, 0 <= z / 16 ^ i mod 16 < 16) as Hd by (intros i; apply Z.mod_pos_bound; lia). split.
  - apply Forall_fmap. apply Forall_true. intros i. apply hex_digit_ok, Hd.
  - unfold hex_value. cbn [fmap list_fmap fold_left]. rewrite !(fun i => proj2 (hex_digit_ok _ (Hd i))). clear Hd.
    change (16 ^ 7) with 268435456. change (16 ^ 6) with 16777216. change (16 ^ 5) with 1048576. change (16 ^ 4) with 65536. change (16 ^ 3) with 4096. change (16 ^ 2) with 256.
    change (16 ^ 1) with 16. change (16 ^ 0) with 1. unfold is_u32, UINT32_MAX in Hz.
    replace 268435456 with (16 * 16 * 16 * 16 * 16 * 16 * 16) by lia. replace 16777216 with (16 * 16 * 16 * 16 * 16 * 16) by lia.
    replace 1048576 with (16 * 16 * 16 * 16 * 16) by lia. replace 65536 with (16 * 16 * 16 * 16) by lia. replace 4096 with (16 * 16 * 16) by lia. replace 256 with (16 * 16) by lia.
    rewrite <- !Z.div_div by lia. rewrite Z.div_1_r. lia.
Qed.

Lemma flags_ok ds v s : is_u32 v -> Forall (fun d => 0 <= d.1) ds ->
  exists t r s', flags_text ds v t /\ FLAGS_TO_STRING ds v s = Done (r, s') /\ new_string t s r s'.
Proof.
  intros Hv Hds. unfold FLAGS_TO_STRING. destruct (all_values_ok ds true v Hv Hds) as (sel&Hsel&->).
  set (rest := Z.ldiff v (listed_bits ds.*1 sel)). assert (is_u32 rest) by (by apply ldiff_u32).
  set (t := if negb (rest =? 0) then after true (listed ds.*2 sel) ++ (if (match listed ds.*2 sel with [] => true | _ => false end) then [] else bar) ++ unknown_flag ++ hex8 rest ++ [41]
            else after true (listed ds.*2 sel)).
  assert (wp (sprintf_char t) s (fun r s' => new_string t s r s')) as Hw. { apply wp_sprintf_char. done. }
  apply wp_done in Hw as (r&s'&Hr&Hn). exists t, r, s'. split; [|split; [|done]].
  - exists sel. split; [done|]. cbv zeta. fold rest. assert (forall l, after true l = joined l) as Ha by (by intros [|? ?]). subst t. destruct (decide (rest = 0)) as [E|E].
    + rewrite E. simpl. apply Ha.
    + exists (unknown_flag ++ hex8 rest ++ [41]). split; [by apply hex8_ok|]. destruct (Z.eqb_spec rest 0); [done|]. simpl.
      rewrite <-Ha, after_app. by destruct (listed ds.*2 sel).
  - subst t. rewrite <-Hr. by destruct (negb (rest =? 0)).
Qed.

Lemma subset_dec_bool f v b b' : (b = true <-> subset_of f v) -> (b' = true <-> subset_of f v) -> b = b'.
Proof. destruct b, b'; naive_solver. Qed.
Lemma selects_unique fs v sel sel' : selects fs v sel -> selects fs v sel' -> sel = sel'.
Proof.
  intros [Hl H] [Hl' H']. assert (forall i, take i sel = take i sel') as Ht.
  { induction i as [|i IH]; [done|]. destruct (sel !! i) as [b|] eqn:Eb.
    - destruct (lookup_lt_is_Some_2 sel' i) as [b' Eb']; [rewrite Hl', <-Hl; by eapply lookup_lt_Some|].
      destruct (lookup_lt_is_Some_2 fs i) as [f Ef]; [rewrite <-Hl; by eapply lookup_lt_Some|].
      rewrite (take_S_r _ _ _ Eb), (take_S_r _ _ _ Eb'), IH. f_equal. f_equal. eapply subset_dec_bool; [by eapply H|]. rewrite IH. by eapply H'.
    - apply lookup_ge_None in Eb. rewrite !take_ge in IH by lia. by rewrite !take_ge by lia. }
  specialize (Ht (length fs)). rewrite !take_ge in Ht by lia. done.
Qed.
Lemma listed_bits_spec fs sel k : length sel = length fs -> 0 <= k ->
  Z.testbit (listed_bits fs sel) k = true <-> exists i f, fs !! i = Some f /\ sel !! i = Some true /\ Z.testbit f k = true.
Proof.
  revert sel. induction fs as [|f fs IH]; intros [|b sel] Hl Hk; try done.
  - simpl. rewrite Z.bits_0. split; [done|]. intros (i&f&Hf&_). by rewrite lookup_nil in Hf.
  - simpl. rewrite Z.lor_spec, orb_true_iff, IH by (simpl in *; lia || done). split.
    + intros [H|(i&f'&?&?&?)]; [|exists (S i), f'; auto]. destruct b; [|by rewrite Z.bits_0 in H]. exists 0%nat, f. auto.
    + intros ([|i]&f'&Hf&Hb&Ht); simpl in *; simplify_eq; [auto|]. right. eauto.
Qed.
Lemma listed_subset fs v sel : selects fs v sel -> subset_of (listed_bits fs sel) v.
Proof.
  intros [Hl H] k Hk Hb. apply listed_bits_spec in Hb as (i&f&Hf&Hs&Hb); [|done..]. destruct (H i f true Hf Hs) as [H1 _]. specialize (H1 eq_refl k Hk Hb).
  rewrite Z.ldiff_spec in H1. apply andb_true_iff in H1. tauto.
Qed.
Lemma bits_account fs v sel : selects fs v sel -> Z.lor (listed_bits fs sel) (Z.ldiff v (listed_bits fs sel)) = v.
Proof.
  intros H%listed_subset. apply Z.bits_inj'. intros k Hk. rewrite Z.lor_spec, Z.ldiff_spec. destruct (Z.testbit (listed_bits fs sel) k) eqn:E; simpl.
  - by rewrite (H k Hk E).
  - by rewrite andb_true_r.
Qed.
Lemma selects_disjoint fs v sel : selects fs v sel -> (forall i j f g, i <> j -> fs !! i = Some f -> fs !! j = Some g -> Z.land f g = 0) ->
  forall i f b, fs !! i = Some f -> sel !! i = Some b -> (b = true <-> subset_of f v).
Proof.
  intros [Hl H] Hd i f b Hf Hb. rewrite (H i f b Hf Hb). unfold subset_of. split; intros Hs k Hk Ht; specialize (Hs k Hk Ht).
  - rewrite Z.ldiff_spec in Hs. apply andb_true_iff in Hs. tauto.
  - rewrite Z.ldiff_spec, Hs. simpl. apply negb_true_iff. destruct (Z.testbit (listed_bits (take i fs) (take i sel)) k) eqn:E; [|done]. exfalso.
    apply listed_bits_spec in E as (j&g&Hg&_&Hgk); [|rewrite !take_length; lia|done]. apply lookup_take_Some in Hg as [Hg Hlt].
    assert (Z.land f g = 0) as H0 by (eapply (Hd i j); [lia|done|done]). assert (Z.testbit (Z.land f g) k = true) as Hc by (by rewrite Z.land_spec, Ht, Hgk).
    by rewrite H0, Z.bits_0 in Hc.
Qed.
