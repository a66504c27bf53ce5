From Verif Require Import Common Block BlockFacts MemDataModel MemDataSpec.
Local Open Scope Z_scope.

Lemma be_bytes_length n v : length (be_bytes n v) = n.
Proof. induction n; simpl; auto. Qed.
Lemma be_bytes_byte n v : all_bytes (be_bytes n v).
Proof.
  induction n as [|n IH]; simpl; constructor; [|done]. unfold is_byte.
  pose proof (Z.mod_pos_bound (v / 256 ^ Z.of_nat n) 256). lia.
Qed.
Lemma be_value_bytes n v : be_value (be_bytes n v) = v mod 256 ^ Z.of_nat n.
Proof.
  induction n as [|n IH]; simpl be_bytes; simpl be_value; [by rewrite Z.mod_1_r|].
  rewrite be_bytes_length, IH. replace (Z.of_nat (S n)) with (Z.of_nat n + 1) by lia.
  rewrite Z.pow_add_r by lia. change (256 ^ 1) with 256.
  assert (0 < 256 ^ Z.of_nat n) by (apply Z.pow_pos_nonneg; lia).
  rewrite (Z.rem_mul_r v) by lia. lia.
Qed.
Lemma be_value_bound l : all_bytes l -> 0 <= be_value l < 256 ^ Z.of_nat (length l).
Proof.
  induction 1 as [|b l Hb _ IH]; [simpl; lia|]. cbn [be_value length]. unfold is_byte in Hb.
  replace (Z.of_nat (S (length l))) with (Z.of_nat (length l) + 1) by lia.
  rewrite Z.pow_add_r by lia. change (256 ^ 1) with 256.
  assert (0 < 256 ^ Z.of_nat (length l)) by (apply Z.pow_pos_nonneg; lia). nia.
Qed.

(** C operators as arithmetic. *)
Lemma land_255 z : Z.land z 255 = z mod 256.
Proof. change 255 with (Z.ones 8). by rewrite Z.land_ones. Qed.

Ltac ops := rewrite ?land_255, ?Z.shiftr_div_pow2, ?Z.shiftl_mul_pow2 by lia.

Lemma wr_chain (l : bytes) p b : (p + length l <= length b)%nat -> wr_all p l b = Done (tt, put_at p l b).
Proof. apply wr_all_ok. Qed.

Ltac write_tac n :=
  let Hl := fresh in
  intros Hl; rewrite <-(wr_all_ok (be_bytes n _)) by (rewrite be_bytes_length; lia);
  cbn [be_bytes wr_all]; ops;
  repeat first [rewrite Nat.add_0_r | rewrite Nat.add_succ_r];
  change (Z.of_nat 0) with 0; change (Z.of_nat 1) with 1; change (Z.of_nat 2) with 2; change (Z.of_nat 3) with 3;
  change (Z.of_nat 4) with 4; change (Z.of_nat 5) with 5; change (Z.of_nat 6) with 6; change (Z.of_nat 7) with 7;
  change (256 ^ 0) with 1; rewrite ?Z.div_1_r;
  change (256 ^ 1) with (2 ^ 8); change (256 ^ 2) with (2 ^ 16); change (256 ^ 3) with (2 ^ 24); change (256 ^ 4) with (2 ^ 32);
  change (256 ^ 5) with (2 ^ 40); change (256 ^ 6) with (2 ^ 48); change (256 ^ 7) with (2 ^ 56);
  unfold bind, ret;
  repeat match goal with |- context [match wr ?i ?v ?b with _ => _ end] => destruct (wr i v b) as [[[] ?]| |]; [|done|done] end; try done;
  match goal with |- wr ?i ?v ?b = _ => by destruct (wr i v b) as [[[] ?]| |] end.

Lemma write_uint8_ok p v b : (p + 1 <= length b)%nat -> 0 <= v < 2 ^ 8 -> write_uint8_t p v b = Done (tt, put_at p (be_bytes 1 v) b).
Proof.
  intros H Hv. unfold write_uint8_t. rewrite <-(wr_all_ok (be_bytes 1 v)) by (simpl; lia). simpl.
  rewrite Z.div_1_r, Z.mod_small by lia. rewrite Nat.add_0_r. unfold bind. by destruct (wr p v b) as [[[] ?]| |].
Qed.
Lemma write_uint16_ok p v b : (p + 2 <= length b)%nat -> write_uint16_t p v b = Done (tt, put_at p (be_bytes 2 v) b).
Proof. unfold write_uint16_t. write_tac 2%nat. Qed.
Lemma write_uint32_ok p v b : (p + 4 <= length b)%nat -> write_uint32_t p v b = Done (tt, put_at p (be_bytes 4 v) b).
Proof. unfold write_uint32_t. write_tac 4%nat. Qed.
Lemma write_uint64_ok p v b : (p + 8 <= length b)%nat -> write_uint64_t p v b = Done (tt, put_at p (be_bytes 8 v) b).
Proof. unfold write_uint64_t. write_tac 8%nat. Qed.
Lemma write_int8_ok p v b : (p + 1 <= length b)%nat -> write_int8_t p v b = Done (tt, put_at p (be_bytes 1 v) b).
Proof.
  intros H. unfold write_int8_t, u8. rewrite <-(wr_all_ok (be_bytes 1 v)) by (simpl; lia). simpl.
  rewrite Z.div_1_r. rewrite Nat.add_0_r. unfold bind. by destruct (wr p _ b) as [[[] ?]| |].
Qed.
Lemma write_int16_ok p v b : (p + 2 <= length b)%nat -> write_int16_t p v b = Done (tt, put_at p (be_bytes 2 v) b).
Proof. unfold write_int16_t. write_tac 2%nat. Qed.
Lemma write_int32_ok p v b : (p + 4 <= length b)%nat -> write_int32_t p v b = Done (tt, put_at p (be_bytes 4 v) b).
Proof. unfold write_int32_t. write_tac 4%nat. Qed.
Lemma write_int64_ok p v b : (p + 8 <= length b)%nat -> write_int64_t p v b = Done (tt, put_at p (be_bytes 8 v) b).
Proof. unfold write_int64_t. write_tac 8%nat. Qed.
Lemma write_uuid_ok p v b : (p + length v <= length b)%nat -> write_uuid_t p v b = Done (tt, put_at p v b).
Proof. apply wr_all_ok. Qed.

Ltac rd_tac H :=
  unfold bind, ret;
  repeat match goal with |- context [rd (?p + ?i)%nat ?b] =>
    let v := eval cbn in (H i) in rewrite (rd_ok (p + i) _ b (H i _ eq_refl)) end.
Ltac bounds Hb := unfold all_bytes in Hb; repeat match type of Hb with Forall _ (_ :: _) =>
    let H := fresh "B" in apply Forall_cons in Hb as [H Hb]; unfold is_byte in H end; clear Hb.
Ltac pows := repeat match goal with |- context [(?a ^ ?b)%Z] =>
    let v := eval vm_compute in (a ^ b)%Z in change (a ^ b)%Z with v end.

Ltac Zify.zify_post_hook ::= Z.div_mod_to_equations.

Lemma read_uint8_ok p l b : length l = 1%nat -> all_bytes l -> has_at p l b -> read_uint8_t p b = Done (be_value l, b).
Proof.
  intros Hl Hb H. destruct l as [|s0 [|]]; try done. unfold read_uint8_t.
  rewrite (rd_ok p s0). { simpl. do 2 f_equal. lia. } specialize (H 0%nat _ eq_refl). by rewrite Nat.add_0_r in H.
Qed.
Lemma read_uint16_ok p l b : length l = 2%nat -> all_bytes l -> has_at p l b -> read_uint16_t p b = Done (be_value l, b).
Proof.
  intros Hl Hb H. destruct l as [|s0 [|s1 [|]]]; try done. bounds Hb. unfold read_uint16_t. rd_tac H.
  do 2 f_equal. ops. unfold u16, i32, wrap_signed. cbn [be_value length]; pows. lia.
Qed.
Lemma read_uint32_ok p l b : length l = 4%nat -> all_bytes l -> has_at p l b -> read_uint32_t p b = Done (be_value l, b).
Proof.
  intros Hl Hb H. destruct l as [|s0 [|s1 [|s2 [|s3 [|]]]]]; try done. bounds Hb. unfold read_uint32_t. rd_tac H.
  do 2 f_equal. ops. unfold u32, UINT32_MOD, i32, wrap_signed. cbn [be_value length]; pows. lia.
Qed.
Lemma read_uint64_ok p l b : length l = 8%nat -> all_bytes l -> has_at p l b -> read_uint64_t p b = Done (be_value l, b).
Proof.
  intros Hl Hb H. destruct l as [|s0 [|s1 [|s2 [|s3 [|s4 [|s5 [|s6 [|s7 [|]]]]]]]]]; try done. bounds Hb. unfold read_uint64_t. rd_tac H.
  do 2 f_equal. ops. unfold u64, UINT64_MOD. cbn [be_value length]; pows. rewrite !(Z.mod_small (_ * _)) by lia. lia.
Qed.
Lemma read_int8_ok p l b : length l = 1%nat -> all_bytes l -> has_at p l b -> read_int8_t p b = Done (be_signed l, b).
Proof.
  intros Hl Hb H. destruct l as [|s0 [|]]; try done. bounds Hb. unfold read_int8_t. rd_tac H.
  do 2 f_equal. unfold i8, wrap_signed, be_signed. cbn [be_value length]; pows.
  match goal with |- context [Z.ltb ?a ?b] => destruct (Z.ltb_spec a b) end; lia.
Qed.
Lemma read_int16_ok p l b : length l = 2%nat -> all_bytes l -> has_at p l b -> read_int16_t p b = Done (be_signed l, b).
Proof.
  intros Hl Hb H. destruct l as [|s0 [|s1 [|]]]; try done. bounds Hb. unfold read_int16_t. rd_tac H.
  do 2 f_equal. ops. unfold i16, i32, wrap_signed, be_signed. cbn [be_value length]; pows.
  match goal with |- context [Z.ltb ?a ?b] => destruct (Z.ltb_spec a b) end; lia.
Qed.
Lemma read_int32_ok p l b : length l = 4%nat -> all_bytes l -> has_at p l b -> read_int32_t p b = Done (be_signed l, b).
Proof.
  intros Hl Hb H. destruct l as [|s0 [|s1 [|s2 [|s3 [|]]]]]; try done. bounds Hb. unfold read_int32_t. rd_tac H.
  do 2 f_equal. ops. unfold i32, wrap_signed, be_signed. cbn [be_value length]; pows.
  match goal with |- context [Z.ltb ?a ?b] => destruct (Z.ltb_spec a b) end; lia.
Qed.
Lemma i64_small z : - 2 ^ 63 <= z < 2 ^ 63 -> i64 z = z.
Proof. intros H. unfold i64, wrap_signed. rewrite Z.mod_small; lia. Qed.
Lemma read_int64_ok p l b : length l = 8%nat -> all_bytes l -> has_at p l b -> read_int64_t p b = Done (be_signed l, b).
Proof.
  intros Hl Hb H. destruct l as [|s0 [|s1 [|s2 [|s3 [|s4 [|s5 [|s6 [|s7 [|]]]]]]]]]; try done. bounds Hb. unfold read_int64_t. rd_tac H.
  do 2 f_equal. ops. rewrite !(i64_small (_ * 2 ^ 48)), !(i64_small (_ * 2 ^ 40)), !(i64_small (_ * 2 ^ 32)), !(i64_small (_ * 2 ^ 24)),
    !(i64_small (_ * 2 ^ 16)), !(i64_small (_ * 2 ^ 8)) by lia.
  unfold i64, wrap_signed, be_signed. cbn [be_value length]; pows.
  match goal with |- context [Z.ltb ?a ?b] => destruct (Z.ltb_spec a b) end; lia.
Qed.
Lemma read_uuid_ok p l b : length l = 16%nat -> has_at p l b -> read_uuid_t p b = Done (l, b).
Proof. intros Hl H. unfold read_uuid_t. rewrite <-Hl. by apply rd_all_ok. Qed.

Lemma be_signed_bytes n v : (0 < n)%nat -> - 256 ^ Z.of_nat n / 2 <= v < 256 ^ Z.of_nat n / 2 -> be_signed (be_bytes n v) = v.
Proof.
  intros Hn Hv. unfold be_signed. rewrite be_bytes_length, be_value_bytes.
  destruct n as [|n]; [lia|]. replace (Z.of_nat (S n)) with (Z.of_nat n + 1) in * by lia.
  rewrite Z.pow_add_r in * by lia. change (256 ^ 1) with 256 in *.
  assert (0 < 256 ^ Z.of_nat n) by (apply Z.pow_pos_nonneg; lia).
  set (k := 256 ^ Z.of_nat n) in *.
  replace (- (k * 256) / 2) with (- (k * 128)) in Hv by lia.
  replace (k * 256 / 2) with (k * 128) in * by lia.
  destruct (decide (0 <= v)).
  - rewrite Z.mod_small by lia. destruct (Z.ltb_spec v (k * 128)); lia.
  - replace (v mod (k * 256)) with (v + k * 256).
    2:{ rewrite <-(Z_mod_plus_full v 1). rewrite Z.mul_1_l, Z.mod_small; lia. }
    destruct (Z.ltb_spec (v + k * 256) (k * 128)); lia.
Qed.

Lemma writes_ok (p : nat) (b : block) (v : Z) :
    ((p + 1 <= length b)%nat -> 0 <= v < 2 ^ 8 -> write_uint8_t p v b = Done (tt, put_at p (be_bytes 1 v) b)) /\
    ((p + 2 <= length b)%nat -> 0 <= v < 2 ^ 16 -> write_uint16_t p v b = Done (tt, put_at p (be_bytes 2 v) b)) /\
    ((p + 4 <= length b)%nat -> 0 <= v < 2 ^ 32 -> write_uint32_t p v b = Done (tt, put_at p (be_bytes 4 v) b)) /\
    ((p + 8 <= length b)%nat -> 0 <= v < 2 ^ 64 -> write_uint64_t p v b = Done (tt, put_at p (be_bytes 8 v) b)) /\
    ((p + 1 <= length b)%nat -> - 2 ^ 7 <= v < 2 ^ 7 -> write_int8_t p v b = Done (tt, put_at p (be_bytes 1 v) b)) /\
    ((p + 2 <= length b)%nat -> - 2 ^ 15 <= v < 2 ^ 15 -> write_int16_t p v b = Done (tt, put_at p (be_bytes 2 v) b)) /\
    ((p + 4 <= length b)%nat -> - 2 ^ 31 <= v < 2 ^ 31 -> write_int32_t p v b = Done (tt, put_at p (be_bytes 4 v) b)) /\
    ((p + 8 <= length b)%nat -> - 2 ^ 63 <= v < 2 ^ 63 -> write_int64_t p v b = Done (tt, put_at p (be_bytes 8 v) b)).
Proof.
  repeat split; intros.
  - by apply write_uint8_ok.
  - by apply write_uint16_ok.
  - by apply write_uint32_ok.
  - by apply write_uint64_ok.
  - by apply write_int8_ok.
  - by apply write_int16_ok.
  - by apply write_int32_ok.
  - by apply write_int64_ok.
Qed.
Lemma reads_ok (p : nat) (b : block) (l : bytes) :
    all_bytes l -> has_at p l b ->
    (length l = 1%nat -> read_uint8_t p b = Done (be_value l, b) /\ read_int8_t p b = Done (be_signed l, b)) /\
    (length l = 2%nat -> read_uint16_t p b = Done (be_value l, b) /\ read_int16_t p b = Done (be_signed l, b)) /\
    (length l = 4%nat -> read_uint32_t p b = Done (be_value l, b) /\ read_int32_t p b = Done (be_signed l, b)) /\
    (length l = 8%nat -> read_uint64_t p b = Done (be_value l, b) /\ read_int64_t p b = Done (be_signed l, b)) /\
    (length l = 16%nat -> read_uuid_t p b = Done (l, b)).
Proof.
  intros Hb H. repeat split; intros.
  - by apply read_uint8_ok.
  - by apply read_int8_ok.
  - by apply read_uint16_ok.
  - by apply read_int16_ok.
  - by apply read_uint32_ok.
  - by apply read_int32_ok.
  - by apply read_uint64_ok.
  - by apply read_int64_ok.
  - by apply read_uuid_ok.
Qed.

Local Open Scope cmonad_scope.
Lemma rt_unsigned n p b v (w : Z -> M block unit) (r : M block Z) :
  (p + n <= length b)%nat -> 0 <= v < 256 ^ Z.of_nat n ->
  w v b = Done (tt, put_at p (be_bytes n v) b) ->
  (forall l b, length l = n -> all_bytes l -> has_at p l b -> r b = Done (be_value l, b)) ->
  (w v ;;; r) b = Done (v, put_at p (be_bytes n v) b).
Proof.
  intros Hl Hv Hw Hr. unfold bind. rewrite Hw. rewrite (Hr (be_bytes n v)).
  - by rewrite be_value_bytes, Z.mod_small.
  - apply be_bytes_length.
  - apply be_bytes_byte.
  - apply has_put_at. by rewrite be_bytes_length.
Qed.
Lemma rt_signed n p b v (w : Z -> M block unit) (r : M block Z) :
  (0 < n)%nat -> (p + n <= length b)%nat -> - 256 ^ Z.of_nat n / 2 <= v < 256 ^ Z.of_nat n / 2 ->
  w v b = Done (tt, put_at p (be_bytes n v) b) ->
  (forall l b, length l = n -> all_bytes l -> has_at p l b -> r b = Done (be_signed l, b)) ->
  (w v ;;; r) b = Done (v, put_at p (be_bytes n v) b).
Proof.
  intros Hn Hl Hv Hw Hr. unfold bind. rewrite Hw. rewrite (Hr (be_bytes n v)).
  - by rewrite be_signed_bytes.
  - apply be_bytes_length.
  - apply be_bytes_byte.
  - apply has_put_at. by rewrite be_bytes_length.
Qed.
Lemma round_trips_ok (p : nat) (b : block) (v : Z) :
    ((p + 1 <= length b)%nat -> 0 <= v < 2 ^ 8 -> exists b', (write_uint8_t p v ;;; read_uint8_t p) b = Done (v, b')) /\
    ((p + 2 <= length b)%nat -> 0 <= v < 2 ^ 16 -> exists b', (write_uint16_t p v ;;; read_uint16_t p) b = Done (v, b')) /\
    ((p + 4 <= length b)%nat -> 0 <= v < 2 ^ 32 -> exists b', (write_uint32_t p v ;;; read_uint32_t p) b = Done (v, b')) /\
    ((p + 8 <= length b)%nat -> 0 <= v < 2 ^ 64 -> exists b', (write_uint64_t p v ;;; read_uint64_t p) b = Done (v, b')) /\
    ((p + 1 <= length b)%nat -> - 2 ^ 7 <= v < 2 ^ 7 -> exists b', (write_int8_t p v ;;; read_int8_t p) b = Done (v, b')) /\
    ((p + 2 <= length b)%nat -> - 2 ^ 15 <= v < 2 ^ 15 -> exists b', (write_int16_t p v ;;; read_int16_t p) b = Done (v, b')) /\
    ((p + 4 <= length b)%nat -> - 2 ^ 31 <= v < 2 ^ 31 -> exists b', (write_int32_t p v ;;; read_int32_t p) b = Done (v, b')) /\
    ((p + 8 <= length b)%nat -> - 2 ^ 63 <= v < 2 ^ 63 -> exists b', (write_int64_t p v ;;; read_int64_t p) b = Done (v, b')).
Proof.
  repeat split; intros Hl Hv; eexists.
  - apply (rt_unsigned 1); [done|done|by apply write_uint8_ok|intros; by apply read_uint8_ok].
  - apply (rt_unsigned 2); [done|done|by apply write_uint16_ok|intros; by apply read_uint16_ok].
  - apply (rt_unsigned 4); [done|done|by apply write_uint32_ok|intros; by apply read_uint32_ok].
  - apply (rt_unsigned 8); [done|done|by apply write_uint64_ok|intros; by apply read_uint64_ok].
  - apply (rt_signed 1); [lia|done|done|by apply write_int8_ok|intros; by apply read_int8_ok].
  - apply (rt_signed 2); [lia|done|done|by apply write_int16_ok|intros; by apply read_int16_ok].
  - apply (rt_signed 4); [lia|done|done|by apply write_int32_ok|intros; by apply read_int32_ok].
  - apply (rt_signed 8); [lia|done|done|by apply write_int64_ok|intros; by apply read_int64_ok].
Qed.
Lemma uuid_round_trip_ok (p : nat) (b : block) (u : bytes) :
  length u = 16%nat -> (p + 16 <= length b)%nat ->
  (write_uuid_t p u ;;; read_uuid_t p) b = Done (u, put_at p u b).
Proof.
  intros Hu Hl. unfold bind. rewrite write_uuid_ok by lia. apply read_uuid_ok; [done|]. apply has_put_at. lia.
Qed.
