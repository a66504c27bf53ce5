(** Lemmas about Block.v. *)
From Verif Require Import Common Block.

Lemma rd_ok i v b : b !! i = Some (Some v) -> rd i b = Done (v, b).
Proof. intros H. unfold rd. by rewrite H. Qed.
Lemma wr_ok i v b : i < length b -> wr i v b = Done (tt, <[i := Some v]> b).
Proof. intros H. unfold wr. apply lookup_lt_is_Some in H as [? ->]. done. Qed.

Lemma put_at_nil p b : put_at p [] b = b.
Proof. unfold put_at. simpl. rewrite Nat.add_0_r. apply take_drop. Qed.
Lemma put_at_length p l b : p + length l <= length b -> length (put_at p l b) = length b.
Proof. intros H. unfold put_at, bytes_block. rewrite !app_length, fmap_length, take_length, drop_length. lia. Qed.
Lemma put_at_lookup p l b i :
  p + length l <= length b ->
  put_at p l b !! i = if decide (p <= i < p + length l) then Some <$> (l !! (i - p)) else b !! i.
Proof.
  intros H. unfold put_at, bytes_block.
  destruct (decide (p <= i < p + length l)) as [Hi|Hi].
  - rewrite lookup_app_r by (rewrite take_length; lia). rewrite take_length.
    rewrite lookup_app_l by (rewrite fmap_length; lia). rewrite list_lookup_fmap.
    replace (i - p `min` length b) with (i - p) by lia. done.
  - destruct (decide (i < p)).
    + rewrite lookup_app_l by (rewrite take_length; lia). by rewrite lookup_take by lia.
    + rewrite lookup_app_r by (rewrite take_length; lia). rewrite take_length.
      rewrite lookup_app_r by (rewrite fmap_length; lia). rewrite fmap_length, lookup_drop. f_equal. lia.
Qed.
Lemma put_at_cons p v l b : p + S (length l) <= length b -> put_at p (v :: l) b = put_at (S p) l (<[p := Some v]> b).
Proof.
  intros H. apply list_eq. intros i. rewrite !put_at_lookup by (rewrite ?insert_length; simpl; lia). simpl length.
  destruct (decide (p <= i < p + S (length l))); destruct (decide (S p <= i < S p + length l)); try lia.
  - replace (i - p) with (S (i - S p)) by lia. done.
  - assert (i = p) as -> by lia. rewrite Nat.sub_diag, list_lookup_insert by lia. done.
  - by rewrite list_lookup_insert_ne by lia.
Qed.
Lemma wr_all_ok l p b : p + length l <= length b -> wr_all p l b = Done (tt, put_at p l b).
Proof.
  revert p b. induction l as [|v l IH]; intros p b H; simpl in *.
  - by rewrite put_at_nil.
  - unfold bind. rewrite wr_ok by lia. rewrite IH by (rewrite insert_length; lia). by rewrite put_at_cons.
Qed.
Lemma rd_all_ok l p b : has_at p l b -> rd_all p (length l) b = Done (l, b).
Proof.
  revert p. induction l as [|v l IH]; intros p H; simpl; [done|].
  unfold bind. rewrite (rd_ok p v) by (specialize (H 0 v eq_refl); by rewrite Nat.add_0_r in H).
  rewrite IH; [done|]. intros i w Hi. specialize (H (S i) w Hi). by rewrite Nat.add_succ_r in H.
Qed.
Lemma has_put_at p l b : p + length l <= length b -> has_at p l (put_at p l b).
Proof.
  intros H i v Hi. rewrite put_at_lookup by done. apply lookup_lt_Some in Hi as Hlt.
  rewrite decide_True by lia. replace (p + i - p) with i by lia. by rewrite Hi.
Qed.
Lemma bytes_block_length l : length (bytes_block l) = length l.
Proof. apply fmap_length. Qed.

(** A block filled from the left. *)
Lemma wr_next w k v i : i = length w -> 0 < k ->
  wr i v (bytes_block w ++ replicate k None) = Done (tt, bytes_block (w ++ [v]) ++ replicate (k - 1) None).
Proof.
  intros -> Hk. destruct k as [|k]; [lia|]. unfold wr.
  rewrite lookup_app_r by (by rewrite bytes_block_length). rewrite bytes_block_length, Nat.sub_diag. simpl.
  do 2 f_equal. rewrite <-(bytes_block_length w) at 1. rewrite insert_app_r_alt by done. rewrite Nat.sub_diag. simpl.
  unfold bytes_block. rewrite fmap_app. simpl. rewrite <-app_assoc. simpl. by rewrite Nat.sub_0_r.
Qed.
Lemma at_app {S} (pre : bytes) i x post (s : S) : i = length pre -> at_ (pre ++ x :: post) i s = Done (x, s).
Proof. intros ->. unfold at_. by rewrite list_lookup_middle. Qed.

(** Bit operations as arithmetic. *)
Local Open Scope Z_scope.
Lemma lor_shiftl a k b : 0 <= k -> 0 <= b < 2 ^ k -> Z.lor (Z.shiftl a k) b = a * 2 ^ k + b.
Proof.
  intros Hk Hb. rewrite <-Z.shiftl_mul_pow2 by done.
  rewrite <-Z.lxor_lor, <-Z.add_nocarry_lxor; [done| |]; apply Z.bits_inj'; intros n Hn; rewrite Z.land_spec, Z.bits_0;
  (destruct (decide (n < k)); [rewrite Z.shiftl_spec_low by done; done|];
   assert (Z.testbit b n = false) as ->; [|apply andb_false_r];
   destruct (decide (b = 0)) as [->|]; [apply Z.bits_0|]; apply Z.bits_above_log2; [lia|];
   apply Z.log2_lt_pow2; [lia|]; apply Z.lt_le_trans with (2 ^ k); [lia|]; apply Z.pow_le_mono_r; lia).
Qed.
Lemma land_ones_mod z k m : 0 <= k -> m = Z.ones k -> Z.land z m = z mod 2 ^ k.
Proof. intros ? ->. by apply Z.land_ones. Qed.
