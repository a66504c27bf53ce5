(** Proofs about AsyncOpModel.v. *)
From Verif Require Import Common AsyncOpModel.
Local Open Scope Z_scope.
Ltac Zify.zify_post_hook ::= Z.div_mod_to_equations.

Lemma u32_small z : 0 <= z <= UINT32_MAX -> u32 z = z.
Proof. intros. apply Z.mod_small. unfold UINT32_MOD, UINT32_MAX in *. lia. Qed.
Lemma u64_small z : 0 <= z <= UINT64_MAX -> u64 z = z.
Proof. intros. apply Z.mod_small. unfold UINT64_MOD, UINT64_MAX in *. lia. Qed.

(** x & (x - 1) clears the lowest bit set. *)
Lemma land_pred_pow2 x : 0 < x -> Z.land x (x - 1) = 0 -> exists k, 0 <= k /\ x = 2 ^ k.
Proof.
  intros Hx H. exists (Z.log2 x). pose proof (Z.log2_nonneg x). split; [done|]. destruct (Z.log2_spec x Hx) as [H1 H2].
  destruct (decide (x = 2 ^ Z.log2 x)) as [|Hne]; [done|]. exfalso.
  assert (Z.log2 (x - 1) = Z.log2 x) as E. { apply Z.log2_unique; lia. }
  assert (Z.testbit (Z.land x (x - 1)) (Z.log2 x) = true) as B; [|by rewrite H, Z.bits_0 in B].
  rewrite Z.land_spec. rewrite Z.bit_log2 by done. rewrite <- E, Z.bit_log2; [done|]. pose proof (Z.pow_pos_nonneg 2 (Z.log2 x)). lia.
Qed.
Lemma pow2_land_pred k : 0 <= k -> Z.land (2 ^ k) (2 ^ k - 1) = 0.
Proof.
  intros. replace (2 ^ k - 1) with (Z.ones k) by (rewrite Z.ones_equiv; lia). rewrite Z.land_ones by done. apply Z.mod_same.
  pose proof (Z.pow_pos_nonneg 2 k). lia.
Qed.
Lemma is_power_of_2_spec x : 0 < x <= UINT32_MAX -> is_power_of_2 x = true <-> exists k, 0 <= k /\ x = 2 ^ k.
Proof.
  intros Hx. unfold is_power_of_2. rewrite u32_small by lia. rewrite Z.eqb_eq. split; [apply land_pred_pow2; lia|].
  intros (k&Hk&->). by apply pow2_land_pred.
Qed.
Lemma pow2_le_31 k : 0 <= k -> 2 ^ k <= UINT32_MAX -> 2 ^ k <= 2147483648.
Proof.
  intros Hk H. destruct (decide (k <= 31)) as [Hle|Hgt]; [change 2147483648 with (2 ^ 31); apply Z.pow_le_mono_r; lia|].
  assert (2 ^ 32 <= 2 ^ k) by (apply Z.pow_le_mono_r; lia). unfold UINT32_MAX in *. lia.
Qed.

Lemma refuses_spec s a : is_u32 s -> is_u32 a ->
  create_refuses s a = true <-> ~ (exists k, 0 <= k /\ a = 2 ^ k) \/ UINT32_MAX < s + a + 18.
Proof.
  intros Hs Ha. unfold create_refuses, is_u32 in *. destruct (Z.eqb_spec a 0) as [->|Hz].
  { simpl. split; [|done]. intros _. left. intros (k&Hk&E). pose proof (Z.pow_pos_nonneg 2 k). lia. }
  simpl. destruct (is_power_of_2 a) eqn:E.
  - apply is_power_of_2_spec in E; [|lia]. destruct E as (k&Hk&->). pose proof (pow2_le_31 k Hk). simpl.
    rewrite u64_small by (unfold UINT64_MAX, UINT32_MAX, sizeof_back, alignof_back in *; lia).
    rewrite Z.ltb_lt. unfold sizeof_back, alignof_back. split; [right; lia|]. intros [H'|]; [exfalso; apply H'; eauto|lia].
  - simpl. split; [|done]. intros _. left. intros H. apply is_power_of_2_spec in H; [congruence|lia].
Qed.

Lemma next_aligned s a : 0 < a <= UINT32_MAX -> 0 <= s -> s + a - 1 <= UINT64_MAX ->
  let r := get_next_aligned_address s a in s <= r /\ r <= s + a - 1 /\ r mod a = 0.
Proof.
  intros Ha Hs Hm r. subst r. unfold get_next_aligned_address. pose proof (Z.mod_pos_bound s a). rewrite (u32_small (s mod a)) by lia.
  destruct (Z.eqb_spec (s mod a) 0) as [E|E].
  - rewrite Z.mul_0_l. change (u32 0) with 0. rewrite Z.add_0_r. rewrite u64_small by lia. lia.
  - rewrite (u32_small (a - _)) by lia. rewrite Z.mul_1_l. rewrite u32_small by lia. rewrite u64_small by lia. split; [lia|]. split; [lia|].
    apply Z.mod_divide; [lia|]. exists (s / a + 1). pose proof (Z.div_mod s a). lia.
Qed.
Lemma prev_aligned s : 8 <= s <= UINT64_MAX ->
  let r := get_prev_aligned_with_size_address s 8 8 in r = s - 8 - (s - 8) mod 8.
Proof.
  intros Hs r. subst r. unfold get_prev_aligned_with_size_address. rewrite (u64_small (s - 8)) by lia.
  pose proof (Z.mod_pos_bound (s - 8) 8). rewrite u32_small by (unfold UINT32_MAX; lia). apply u64_small. lia.
Qed.

Lemma load_same (m : cells) a v : (forall i, 0 <= i < 8 -> m (a + i) = Some (v, i)) -> load_ptr m a = Some v.
Proof.
  intros H. unfold load_ptr. pose proof (H 0) as H0. rewrite Z.add_0_r in H0. rewrite H0 by lia.
  assert (forall l, (forall i, In i l -> 0 <= i < 8) -> forallb (fun i => bool_decide (m (a + i) = Some (v, i))) l = true) as Hl.
  { induction l as [|i l IH]; intros Hi; [done|]. cbn [forallb]. rewrite bool_decide_eq_true_2; [|apply H, Hi; by left]. simpl. apply IH. intros. apply Hi. by right. }
  rewrite Hl; [done|]. simpl. lia.
Qed.

Lemma create_none b m s a : async_op_create b m s a = None <-> create_refuses s a = true \/ b (extra_size s a) = None.
Proof.
  unfold async_op_create. destruct (create_refuses s a); [tauto|]. destruct (b _) as [[? ?]|]; naive_solver.
Qed.

Lemma create_layout b m s a c : is_u32 s -> is_u32 a -> async_op_create b m s a = Some c -> 0 < from c -> from c + extra c <= UINT64_MAX ->
  extra c = s + a + 14 /\ b (extra c) = Some (op c, from c) /\
  exists back, from c <= back /\ back mod 8 = 0 /\ back + 8 <= context c /\ context c + s <= from c + extra c /\ context c mod a = 0 /\
  (forall x, ~ (back <= x < back + 8) -> cells_after c x = m x) /\
  forall m', (forall x, ~ (context c <= x < context c + s) -> m' x = cells_after c x) -> async_op_from_context m' (context c) = Some (op c).
Proof.
  intros Hs Ha Hc Hf Hmax. unfold async_op_create in Hc. destruct (create_refuses s a) eqn:Hr; [done|].
  assert (~ (~ (exists k, 0 <= k /\ a = 2 ^ k) \/ UINT32_MAX < s + a + 18)) as Hok. { rewrite <- refuses_spec by done. by rewrite Hr. }
  assert (0 < a) as Ha0. { unfold is_u32 in *. destruct (decide (a = 0)) as [->|]; [|lia]. by destruct Hok; left; intros (k&?&?); pose proof (Z.pow_pos_nonneg 2 k); lia. }
  assert (s + a + 18 <= UINT32_MAX) as Hsz by lia. unfold is_u32 in *.
  assert (extra_size s a = s + a + 14) as Ee. { unfold extra_size, sizeof_back, alignof_back. rewrite u32_small; lia. }
  rewrite Ee in Hc. destruct (b (s + a + 14)) as [[p q]|] eqn:Hb; [|done]. injection Hc as <-. simpl in *.
  split; [done|]. split; [done|]. unfold sizeof_back, alignof_back in *.
  destruct (next_aligned q 8) as (H1&H2&H3); [unfold UINT32_MAX; lia|lia|lia|]. set (temp := get_next_aligned_address q 8) in *.
  rewrite (u64_small (temp + 8)) by lia. destruct (next_aligned (temp + 8) a) as (H4&H5&H6); [lia|lia|lia|]. set (ctx := get_next_aligned_address (temp + 8) a) in *.
  pose proof (prev_aligned ctx) as H7. cbv zeta in H7. rewrite H7 by lia. clear H7. exists (ctx - 8 - (ctx - 8) mod 8).
  assert (q <= ctx - 8 - (ctx - 8) mod 8 /\ (ctx - 8 - (ctx - 8) mod 8) mod 8 = 0) as [H8 H9].
  { clearbody ctx temp. clear -H1 H3 H4. split; [|lia]. lia. }
  pose proof (Z.mod_pos_bound (ctx - 8) 8). split; [done|]. split; [done|]. split; [lia|]. split; [lia|]. split; [done|]. split.
  - intros x Hx. unfold store_ptr. destruct (Z.leb_spec (ctx - 8 - (ctx - 8) mod 8) x), (Z.ltb_spec x (ctx - 8 - (ctx - 8) mod 8 + 8)); simpl; try done. lia.
  - intros m' Hm'. unfold async_op_from_context. destruct (Z.eqb_spec ctx 0); [lia|]. unfold sizeof_back, alignof_back.
    rewrite (u64_small (ctx - 8)) by lia. rewrite u64_small by lia. apply load_same. intros i Hi. rewrite Hm' by lia. unfold store_ptr.
    destruct (Z.leb_spec (ctx - 8 - (ctx - 8) mod 8) (ctx - 8 - (ctx - 8) mod 8 + i)); [|lia].
    destruct (Z.ltb_spec (ctx - 8 - (ctx - 8) mod 8 + i) (ctx - 8 - (ctx - 8) mod 8 + 8)); [|lia]. simpl. f_equal. f_equal. lia.
Qed.
