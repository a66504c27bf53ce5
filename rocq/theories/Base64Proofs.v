From Verif Require Import Common Block BlockFacts Base64Model Base64Spec.
Local Open Scope Z_scope.
Local Open Scope cmonad_scope.
Ltac Zify.zify_post_hook ::= Z.div_mod_to_equations.

Lemma list3_ind {A} (P : list A -> Prop) :
  P [] -> (forall a, P [a]) -> (forall a b, P [a; b]) -> (forall a b c l, P l -> P (a :: b :: c :: l)) -> forall l, P l.
Proof.
  intros H0 H1 H2 H3 l.
  assert (P l /\ (forall a, P (a :: l)) /\ (forall a b, P (a :: b :: l))) as [? _]; [|done].
  induction l as [|x l (IH1&IH2&IH3)]; [done|]. repeat split; auto.
Qed.
Lemma list4_ind {A} (P : list A -> Prop) :
  P [] -> (forall a, P [a]) -> (forall a b, P [a; b]) -> (forall a b c, P [a; b; c]) ->
  (forall a b c d l, P l -> P (a :: b :: c :: d :: l)) -> forall l, P l.
Proof.
  intros H0 H1 H2 H3 H4 l.
  assert (P l /\ (forall a, P (a :: l)) /\ (forall a b, P (a :: b :: l)) /\ (forall a b c, P (a :: b :: c :: l))) as [? _]; [|done].
  induction l as [|x l (IH1&IH2&IH3&IH4)]; [done|]. repeat split; auto.
Qed.

(** ** Characters *)
Definition range (n : nat) : list Z := Z.of_nat <$> seq 0 n.
Lemma range_in n z : 0 <= z < Z.of_nat n -> z ∈ range n.
Proof. intros H. apply elem_of_list_fmap. exists (Z.to_nat z). split; [lia|]. apply elem_of_seq. lia. Qed.
Lemma range_forall n (P : Z -> bool) : forallb P (range n) = true -> forall z, 0 <= z < Z.of_nat n -> P z = true.
Proof. rewrite forallb_forall. intros H z Hz. apply H. apply elem_of_list_In. by apply range_in. Qed.

Lemma base64char_ok v : 0 <= v < 64 -> base64char v = digit v.
Proof. intros H. apply Z.eqb_eq. apply (range_forall 64 (fun v => base64char v =? digit v)); [vm_compute; reflexivity|lia]. Qed.
Lemma base64b16_ok v : 0 <= v < 16 -> base64b16 v = digit (4 * v).
Proof. intros H. apply Z.eqb_eq. apply (range_forall 16 (fun v => base64b16 v =? digit (4 * v))); [vm_compute; reflexivity|lia]. Qed.
Lemma base64b8_ok v : 0 <= v < 4 -> base64b8 v = digit (16 * v).
Proof. intros H. apply Z.eqb_eq. apply (range_forall 4 (fun v => base64b8 v =? digit (16 * v))); [vm_compute; reflexivity|lia]. Qed.
Lemma value_of_digit v : 0 <= v < 64 -> value_of (digit v) = Some v.
Proof.
  intros H. eapply bool_decide_eq_true_1.
  refine (range_forall 64 (fun v => bool_decide (value_of (digit v) = Some v)) _ v _); [vm_compute; reflexivity|lia].
Qed.
Lemma digit_byte v : 0 <= v < 64 -> 1 <= digit v <= 255.
Proof.
  intros H. assert ((1 <=? digit v) && (digit v <=? 255) = true); [|lia].
  apply (range_forall 64 (fun v => (1 <=? digit v) && (digit v <=? 255))); [vm_compute; reflexivity|lia].
Qed.
Lemma digit_not_pad v : 0 <= v < 64 -> digit v <> PAD.
Proof.
  intros H. apply Z.eqb_neq, negb_true_iff.
  apply (range_forall 64 (fun v => negb (digit v =? PAD))); [vm_compute; reflexivity|lia].
Qed.
Lemma toValue_ok c : 0 <= c <= 255 ->
  base64toValue c = match value_of c with Some v => (true, v) | None => (false, 0) end.
Proof.
  intros H. eapply bool_decide_eq_true_1.
  refine (range_forall 256 (fun c => bool_decide (base64toValue c = match value_of c with Some v => (true, v) | None => (false, 0) end)) _ c _);
    [vm_compute; reflexivity|lia].
Qed.
Lemma index_of_bound c l v : index_of c l = Some v -> 0 <= v < Z.of_nat (length l).
Proof.
  revert v. induction l as [|x l IH]; intros v; simpl; [done|]. destruct (decide (x = c)).
  - intros [= <-]. lia.
  - destruct (index_of c l) as [w|]; [|done]. simpl. intros [= <-]. specialize (IH w eq_refl). lia.
Qed.
Lemma value_of_bound c v : value_of c = Some v -> 0 <= v < 64.
Proof. intros H. apply index_of_bound in H. exact H. Qed.

Ltac eqs := repeat first [reflexivity | apply f_equal2; [first [lia | apply (f_equal digit); lia]|]].
(** ** Encoding *)
Ltac bits :=
  rewrite ?(land_ones_mod _ 2 3), ?(land_ones_mod _ 4 15), ?(land_ones_mod _ 6 63), ?(land_ones_mod _ 8 255) by (reflexivity || lia);
  rewrite ?Z.shiftr_div_pow2 by lia.

Lemma enc_c1 a : 0 <= a <= 255 -> base64char (Z.shiftr a 2) = digit (a / 4).
Proof. intros. bits. apply base64char_ok. lia. Qed.
Lemma enc_c2 a b : 0 <= a <= 255 -> 0 <= b <= 255 ->
  base64char (Z.lor (Z.shiftl (Z.land a 3) 4) (Z.shiftr b 4)) = digit (a mod 4 * 16 + b / 16).
Proof. intros. bits. rewrite lor_shiftl by lia. apply base64char_ok. lia. Qed.
Lemma enc_c3 b c : 0 <= b <= 255 -> 0 <= c <= 255 ->
  base64char (Z.lor (Z.shiftl (Z.land b 15) 2) (Z.land (Z.shiftr c 6) 3)) = digit (b mod 16 * 4 + c / 64).
Proof.
  intros. bits. rewrite lor_shiftl by lia. rewrite base64char_ok by lia. f_equal. lia.
Qed.
Lemma enc_c4 c : 0 <= c <= 255 -> base64char (Z.land c 63) = digit (c mod 64).
Proof. intros. bits. apply base64char_ok. lia. Qed.

Lemma rfc3 a b c l : is_byte a -> is_byte b -> is_byte c ->
  rfc4648 (a :: b :: c :: l) = digit (a / 4) :: digit (a mod 4 * 16 + b / 16) :: digit (b mod 16 * 4 + c / 64) :: digit (c mod 64) :: rfc4648 l.
Proof. unfold is_byte. intros. cbn [rfc4648]. eqs. Qed.
Lemma rfc2 a b : is_byte a -> is_byte b ->
  rfc4648 [a; b] = [digit (a / 4); digit (a mod 4 * 16 + b / 16); digit (4 * (b mod 16)); PAD].
Proof. unfold is_byte. intros. cbn [rfc4648]. eqs. Qed.
Lemma rfc1 a : is_byte a -> rfc4648 [a] = [digit (a / 4); digit (16 * (a mod 4)); PAD; PAD].
Proof. unfold is_byte. intros. cbn [rfc4648]. eqs. Qed.
Lemma rfc_length l : length (rfc4648 l) = ((length l + 2) / 3 * 4)%nat.
Proof. induction l as [| | |a b c l IH] using list3_ind; [done..|]. cbn [rfc4648 length]. rewrite IH. lia. Qed.

(** One [wr] at the frontier. *)
Ltac frontier :=
  match goal with
  | |- context [wr ?i ?v (bytes_block ?w ++ replicate ?k None)] =>
    rewrite (wr_next w k v i) by (rewrite ?app_length; simpl; lia); cbv beta iota
  end.

Definition enc_tail (source : bytes) (size cur dst : nat) : M block unit :=
  let* dst :=
    (if (size - cur =? 2)%nat then
      let* s0 := at_ source cur in
      let* s1 := at_ source (cur + 1) in
      let c1 := base64char (Z.shiftr s0 2) in
      let c2 := base64char (Z.lor (Z.shiftl (Z.land s0 3) 4) (Z.shiftr s1 4)) in
      let c3 := base64b16 (Z.land s1 15) in
      wr dst c1 ;;; wr (dst + 1) c2 ;;; wr (dst + 2) c3 ;;; wr (dst + 3) 61 ;;; ret (dst + 4)%nat
    else if (size - cur =? 1)%nat then
      let* s0 := at_ source cur in
      let c1 := base64char (Z.shiftr s0 2) in
      let c2 := base64b8 (Z.land s0 3) in
      wr dst c1 ;;; wr (dst + 1) c2 ;;; wr (dst + 2) 61 ;;; wr (dst + 3) 61 ;;; ret (dst + 4)%nat
    else ret dst) in
  wr dst 0.

Lemma at_app1 {S} (pre : bytes) i x y post (s : S) : i = length pre -> at_ (pre ++ x :: y :: post) (i + 1) s = Done (y, s).
Proof. intros ->. unfold at_. rewrite lookup_app_r by lia. replace (length pre + 1 - length pre)%nat with 1%nat by lia. done. Qed.
Lemma at_app2 {S} (pre : bytes) i x y z post (s : S) : i = length pre -> at_ (pre ++ x :: y :: z :: post) (i + 2) s = Done (z, s).
Proof. intros ->. unfold at_. rewrite lookup_app_r by lia. replace (length pre + 2 - length pre)%nat with 2%nat by lia. done. Qed.
Lemma at_app3 {S} (pre : bytes) i x y z t post (s : S) : i = length pre -> at_ (pre ++ x :: y :: z :: t :: post) (i + 3) s = Done (t, s).
Proof. intros ->. unfold at_. rewrite lookup_app_r by lia. replace (length pre + 3 - length pre)%nat with 3%nat by lia. done. Qed.

Lemma encode_ok rest : forall fuel pre w k cur dst size,
  all_bytes rest -> (length rest < fuel)%nat -> size = (length pre + length rest)%nat ->
  cur = length pre -> dst = length w -> (length (rfc4648 rest) < k)%nat ->
  bind (encode_groups fuel (pre ++ rest) size cur dst) (fun '(cur, dst) => enc_tail (pre ++ rest) size cur dst)
    (bytes_block w ++ replicate k None)
  = Done (tt, bytes_block (w ++ rfc4648 rest ++ [0]) ++ replicate (k - length (rfc4648 rest) - 1) None).
Proof.
  induction rest as [|a|a b|a b c rest IH] using list3_ind; intros fuel pre w k cur dst size Hb Hf Hs Hc Hd Hk;
    (destruct fuel as [|fuel]; [simpl in Hf; lia|]); cbn [encode_groups].
  - destruct (Nat.leb_spec 3 (size - cur)); [simpl in *; lia|]. unfold bind at 1. unfold ret at 1. unfold enc_tail.
    destruct (Nat.eqb_spec (size - cur) 2); [simpl in *; lia|]. destruct (Nat.eqb_spec (size - cur) 1); [simpl in *; lia|].
    unfold bind, ret. frontier. simpl. do 2 f_equal. f_equal. f_equal. simpl in Hk. lia.
  - destruct (Nat.leb_spec 3 (size - cur)); [simpl in *; lia|]. unfold bind at 1. unfold ret at 1. unfold enc_tail.
    destruct (Nat.eqb_spec (size - cur) 2); [simpl in *; lia|]. destruct (Nat.eqb_spec (size - cur) 1); [|simpl in *; lia].
    apply Forall_cons in Hb as [Ha _]. unfold bind, ret. rewrite at_app by done. rewrite enc_c1 by done. bits. rewrite base64b8_ok by lia.
    rewrite rfc1 in * by done. simpl in Hk. do 5 frontier. rewrite <-!app_assoc. simpl. do 3 f_equal. f_equal. lia.
  - destruct (Nat.leb_spec 3 (size - cur)); [simpl in *; lia|]. unfold bind at 1. unfold ret at 1. unfold enc_tail.
    destruct (Nat.eqb_spec (size - cur) 2); [|simpl in *; lia].
    apply Forall_cons in Hb as [Ha Hb]. apply Forall_cons in Hb as [Hb _]. unfold is_byte in *.
    unfold bind, ret. rewrite at_app by done. rewrite at_app1 by done. rewrite enc_c1, enc_c2 by done. bits. rewrite base64b16_ok by lia.
    rewrite rfc2 in * by done. simpl in Hk. do 5 frontier. rewrite <-!app_assoc. simpl. do 3 f_equal. f_equal. lia.
  - destruct (Nat.leb_spec 3 (size - cur)); [|simpl in *; lia].
    apply Forall_cons in Hb as [Ha Hb]. apply Forall_cons in Hb as [Hb Hb']. apply Forall_cons in Hb' as [Hc' Hb'].
    rewrite rfc3 in Hk |- * by done. simpl length in *.
    specialize (IH fuel (pre ++ [a; b; c]) (w ++ [digit (a / 4); digit (a mod 4 * 16 + b / 16); digit (b mod 16 * 4 + c / 64); digit (c mod 64)])
      (k - 4)%nat (cur + 3)%nat (dst + 4)%nat size Hb').
    rewrite <-!app_assoc in IH. simpl app in IH. rewrite !app_length in IH. simpl length in IH.
    unfold is_byte in *.
    unfold bind in IH |- *. rewrite at_app by done. rewrite at_app1 by done. rewrite at_app2 by done. rewrite enc_c1, enc_c2, enc_c3, enc_c4 by done.
    do 4 frontier. rewrite <-!app_assoc. simpl app. replace (k - 1 - 1 - 1 - 1)%nat with (k - 4)%nat by lia.
    rewrite IH by lia. do 3 f_equal. f_equal. lia.
Qed.

Lemma encode_body_ok l : all_bytes l ->
  encode_body l (length l) (fresh_block (length (rfc4648 l) + 1)) = Done (tt, bytes_block (rfc4648 l ++ [0])).
Proof.
  intros Hb. pose proof (encode_ok l (1 + length l) [] [] (length (rfc4648 l) + 1) 0 0 (length l) Hb) as H.
  simpl app in H. unfold encode_body, fresh_block. etransitivity; [apply H; simpl; try lia|].
  replace (length (rfc4648 l) + 1 - length (rfc4648 l) - 1)%nat with 0%nat by lia. simpl. by rewrite app_nil_r.
Qed.

Lemma internal_ok l m n : all_bytes l ->
  Base64_Encode_Internal m n l (length l) = Done (if m && n then Some (bytes_block (rfc4648 l ++ [0])) else None).
Proof.
  intros Hb. unfold Base64_Encode_Internal. destruct m; [|done]. simpl negb. cbv beta iota.
  assert ((1 + (if (length l =? 0)%nat then 0 else ((length l - 1) / 3) + 1) * 4)%nat = (length (rfc4648 l) + 1)%nat) as ->.
  { rewrite rfc_length. destruct (Nat.eqb_spec (length l) 0); lia. }
  rewrite encode_body_ok by done. by destruct n.
Qed.

Theorem encode_bytes_ok l m n : all_bytes l ->
  Azure_Base64_Encode_Bytes m n (Some l) (length l)
  = Done (if n && (m || bool_decide (l = [])) then Some (bytes_block (rfc4648 l ++ [0])) else None).
Proof.
  intros Hb. unfold Azure_Base64_Encode_Bytes. destruct (Nat.eqb_spec (length l) 0) as [E|E].
  - destruct l; [|done]. simpl. rewrite orb_true_r, andb_true_r. by destruct n.
  - rewrite internal_ok by done. rewrite (bool_decide_eq_false_2 (l = [])) by (by destruct l). by destruct m, n.
Qed.
Theorem encode_buffer_ok l m n : all_bytes l ->
  Azure_Base64_Encode m n (Some l) = Done (if m && n then Some (bytes_block (rfc4648 l ++ [0])) else None).
Proof. intros. by apply internal_ok. Qed.

(** ** Decoding *)
Lemma strlen_ok {S} s (x : S) : no_nul s -> strlen (s ++ [0]) x = Done (length s, x).
Proof.
  induction 1 as [|c s Hc _ IH]; [done|]. simpl. destruct (Z.eqb_spec c 0); [lia|]. unfold bind. by rewrite IH.
Qed.

Definition chars_of (cs ds : list Z) : Prop := Forall2 (fun c d => value_of c = Some d /\ 0 <= c <= 255) cs ds.

Lemma leading_split s : no_nul s -> exists cs rest, s ++ [0] = cs ++ rest /\ chars_of cs (leading_digits s) /\
   exists r rest', rest = r :: rest' /\ 0 <= r <= 255 /\ value_of r = None.
Proof.
  induction 1 as [|c s Hc _ IH]; simpl.
  - exists [], [0]. split; [done|]. split; [constructor|]. exists 0, []. done.
  - destruct (value_of c) as [v|] eqn:E.
    + destruct IH as (cs&rest&Heq&Hcs&Hr). exists (c :: cs), rest. rewrite Heq. split; [done|]. split; [|done].
      constructor; [|done]. split; [done|lia].
    + exists [], (c :: s ++ [0]). split; [done|]. split; [constructor|]. exists c, (s ++ [0]). split; [done|]. split; [lia|done].
Qed.
Lemma nchars_loop {S} cs ds r rest (x : S) : chars_of cs ds -> 0 <= r <= 255 -> value_of r = None ->
  forall fuel pre n, n = length pre -> (length cs < fuel)%nat ->
  numberOfBase64Characters_loop fuel (pre ++ cs ++ r :: rest) n x = Done ((n + length cs)%nat, x).
Proof.
  intros Hcs Hr Hv. induction Hcs as [|c d cs ds [Hc Hcb] Hcs IH]; intros fuel pre n Hn Hf.
  - destruct fuel as [|fuel]; [simpl in Hf; lia|]. simpl. unfold bind. rewrite at_app by done.
    rewrite toValue_ok, Hv by lia. simpl. unfold ret. do 2 f_equal. lia.
  - destruct fuel as [|fuel]; [simpl in Hf; lia|]. simpl. unfold bind. rewrite at_app by done.
    rewrite toValue_ok, Hc by lia. simpl. specialize (IH fuel (pre ++ [c]) (n + 1)%nat). rewrite <-app_assoc in IH. simpl in IH, Hf.
    rewrite IH; [f_equal; f_equal; lia| |lia]. rewrite app_length. simpl. lia.
Qed.

Definition dec_tail (base64String : bytes) (n i d : nat) : M block unit :=
  if (n =? 2)%nat then
    let* x1 := at_ base64String i in
    let* x2 := at_ base64String (i + 1) in
    let c1 := (base64toValue x1).2 in
    let c2 := (base64toValue x2).2 in
    wr d (Z.lor (Z.shiftl c1 2) (Z.shiftr c2 4))
  else if (n =? 3)%nat then
    let* x1 := at_ base64String i in
    let* x2 := at_ base64String (i + 1) in
    let* x3 := at_ base64String (i + 2) in
    let c1 := (base64toValue x1).2 in
    let c2 := (base64toValue x2).2 in
    let c3 := (base64toValue x3).2 in
    wr d (Z.lor (Z.shiftl c1 2) (Z.shiftr c2 4)) ;;;
    wr (d + 1) (Z.lor (Z.shiftl (Z.land c2 15) 4) (Z.shiftr c3 2))
  else ret tt.

Lemma dec_1 d1 d2 : 0 <= d1 < 64 -> 0 <= d2 < 64 -> Z.lor (Z.shiftl d1 2) (Z.shiftr d2 4) = d1 * 4 + d2 / 16.
Proof. intros. bits. rewrite lor_shiftl by lia. done. Qed.
Lemma dec_2 d2 d3 : 0 <= d2 < 64 -> 0 <= d3 < 64 -> Z.lor (Z.shiftl (Z.land d2 15) 4) (Z.shiftr d3 2) = d2 mod 16 * 16 + d3 / 4.
Proof. intros. bits. rewrite lor_shiftl by lia. done. Qed.
Lemma dec_3 d3 d4 : 0 <= d3 < 64 -> 0 <= d4 < 64 -> Z.lor (Z.shiftl (Z.land d3 3) 6) d4 = d3 mod 4 * 64 + d4.
Proof. intros. bits. rewrite lor_shiftl by lia. done. Qed.

Lemma db4 d1 d2 d3 d4 ds : 0 <= d1 < 64 -> 0 <= d2 < 64 -> 0 <= d3 < 64 -> 0 <= d4 < 64 ->
  digits_bytes (d1 :: d2 :: d3 :: d4 :: ds) = (d1 * 4 + d2 / 16) :: (d2 mod 16 * 16 + d3 / 4) :: (d3 mod 4 * 64 + d4) :: digits_bytes ds.
Proof. intros. cbn [digits_bytes]. eqs. Qed.
Lemma db3 d1 d2 d3 : 0 <= d1 < 64 -> 0 <= d2 < 64 -> 0 <= d3 < 64 ->
  digits_bytes [d1; d2; d3] = [d1 * 4 + d2 / 16; d2 mod 16 * 16 + d3 / 4].
Proof. intros. cbn [digits_bytes]. eqs. Qed.
Lemma db2 d1 d2 : 0 <= d1 < 64 -> 0 <= d2 < 64 -> digits_bytes [d1; d2] = [d1 * 4 + d2 / 16].
Proof. intros. cbn [digits_bytes]. eqs. Qed.
Lemma db_length ds : length (digits_bytes ds) = (length ds * 3 / 4)%nat.
Proof. induction ds as [| | | |a b c d ds IH] using list4_ind; [done..|]. cbn [digits_bytes length]. rewrite IH. lia. Qed.

Ltac inv_chars H :=
  let c := fresh "c" in let d := fresh "d" in let Hv := fresh "Hv" in let Hb := fresh "Hb" in let H' := fresh "Hcs" in
  let tl := fresh "tl" in
  apply Forall2_cons_inv_r in H as (c&tl&(Hv&Hb)&H'&->).

Lemma decode_ok ds : forall cs rest fuel pre w k i d,
  chars_of cs ds -> (length ds < fuel)%nat -> i = length pre -> d = length w -> (length (digits_bytes ds) <= k)%nat ->
  bind (decode_groups fuel (pre ++ cs ++ rest) (length ds) i d) (fun '(n, i, d) => dec_tail (pre ++ cs ++ rest) n i d)
    (bytes_block w ++ replicate k None)
  = Done (tt, bytes_block (w ++ digits_bytes ds) ++ replicate (k - length (digits_bytes ds)) None).
Proof.
  induction ds as [|d1|d1 d2|d1 d2 d3|d1 d2 d3 d4 ds IH] using list4_ind; intros cs rest fuel pre w k i d Hcs Hf Hi Hd Hk;
    (destruct fuel as [|fuel]; [simpl in Hf; lia|]).
  - apply Forall2_nil_inv_r in Hcs as ->. simpl. unfold bind, ret. simpl. by rewrite app_nil_r, Nat.sub_0_r.
  - inv_chars Hcs. apply Forall2_nil_inv_r in Hcs0 as ->. simpl. unfold bind, ret. simpl. by rewrite app_nil_r, Nat.sub_0_r.
  - inv_chars Hcs. inv_chars Hcs0. apply Forall2_nil_inv_r in Hcs as ->.
    pose proof (value_of_bound _ _ Hv) as B1. pose proof (value_of_bound _ _ Hv0) as B2.
    rewrite db2 in Hk |- * by done. cbn [decode_groups length Nat.leb]. unfold bind, ret, dec_tail. cbn [Nat.eqb]. unfold bind.
    simpl app. rewrite at_app by done. rewrite at_app1 by done. rewrite !toValue_ok by done. rewrite Hv, Hv0. cbn [snd].
    rewrite dec_1 by done. simpl in Hk. frontier. done.
  - inv_chars Hcs. inv_chars Hcs0. inv_chars Hcs. apply Forall2_nil_inv_r in Hcs0 as ->.
    pose proof (value_of_bound _ _ Hv) as B1. pose proof (value_of_bound _ _ Hv0) as B2. pose proof (value_of_bound _ _ Hv1) as B3.
    rewrite db3 in Hk |- * by done. cbn [decode_groups length Nat.leb]. unfold bind, ret, dec_tail. cbn [Nat.eqb]. unfold bind.
    simpl app. rewrite at_app by done. rewrite at_app1 by done. rewrite at_app2 by done.
    rewrite !toValue_ok by done. rewrite Hv, Hv0, Hv1. cbn [snd].
    rewrite dec_1, dec_2 by done. simpl in Hk. do 2 frontier. rewrite <-app_assoc. simpl. do 3 f_equal. f_equal. lia.
  - inv_chars Hcs. inv_chars Hcs0. inv_chars Hcs. inv_chars Hcs0. rename tl0 into cs.
    pose proof (value_of_bound _ _ Hv) as B1. pose proof (value_of_bound _ _ Hv0) as B2. pose proof (value_of_bound _ _ Hv1) as B3.
    pose proof (value_of_bound _ _ Hv2) as B4.
    rewrite db4 in Hk |- * by done. simpl length in Hk, Hf.
    specialize (IH cs rest fuel (pre ++ [c; c0; c1; c2]) (w ++ [d1 * 4 + d2 / 16; d2 mod 16 * 16 + d3 / 4; d3 mod 4 * 64 + d4]) (k - 3)%nat (i + 4)%nat (d + 3)%nat Hcs).
    rewrite <-!app_assoc in IH. simpl app in IH. rewrite !app_length in IH. simpl length in IH.
    cbn [decode_groups]. change (length (d1 :: d2 :: d3 :: d4 :: ds)) with (4 + length ds)%nat.
    destruct (Nat.leb_spec 4 (4 + length ds)); [|lia].
    unfold bind in IH |- *. simpl app. rewrite at_app by done. rewrite at_app1 by done. rewrite at_app2 by done. rewrite at_app3 by done.
    rewrite !toValue_ok by done. rewrite Hv, Hv0, Hv1, Hv2. cbn [snd]. rewrite dec_1, dec_2, dec_3 by done.
    do 3 frontier. rewrite <-!app_assoc. simpl app. replace (k - 1 - 1 - 1)%nat with (k - 3)%nat by lia.
    replace (4 + length ds - 4)%nat with (length ds) by lia.
    etransitivity; [apply IH; lia|]. do 3 f_equal. simpl length. f_equal. lia.
Qed.

Lemma chars_length cs ds : chars_of cs ds -> length cs = length ds.
Proof. apply Forall2_length. Qed.

Lemma Base64decode_ok s k : no_nul s -> (length (digits_bytes (leading_digits s)) <= k)%nat ->
  Base64decode (s ++ [0]) (fresh_block k)
  = Done (tt, bytes_block (digits_bytes (leading_digits s)) ++ replicate (k - length (digits_bytes (leading_digits s))) None).
Proof.
  intros Hs Hk. destruct (leading_split s Hs) as (cs&rest&Heq&Hcs&r&rest'&->&Hr&Hv). rewrite Heq.
  unfold Base64decode, numberOfBase64Characters. unfold bind at 1.
  rewrite (nchars_loop cs _ r rest' _ Hcs Hr Hv _ []); [|done|rewrite app_length; simpl; lia].
  simpl plus. pose proof (chars_length _ _ Hcs) as Hl.
  pose proof (decode_ok (leading_digits s) cs (r :: rest') (1 + length cs) [] [] k 0 0 Hcs) as H.
  simpl app in H. rewrite Hl in H |- *. apply H; simpl; try lia.
Qed.

Lemma padding_cases s : (length s mod 4 = 0)%nat -> s <> [] ->
  exists s0 c2 c1, s = s0 ++ [c2; c1] /\ padding s = (if decide (c1 = PAD) then if decide (c2 = PAD) then 2 else 1 else 0)%nat.
Proof.
  intros Hm Hne. destruct s as [|c1 s _] using rev_ind; [done|]. destruct s as [|c2 s _] using rev_ind; [simpl in Hm; lia|].
  exists s, c2, c1. split; [by rewrite <-app_assoc|]. unfold padding. by rewrite !reverse_snoc.
Qed.
Lemma decode_len_ok {S} s (x : S) : no_nul s -> (length s mod 4 = 0)%nat ->
  Base64decode_len (s ++ [0]) x = Done ((length s / 4 * 3 - padding s)%nat, x).
Proof.
  intros Hs Hm. unfold Base64decode_len. unfold bind at 1. rewrite strlen_ok by done.
  destruct (Nat.eqb_spec (length s) 0) as [E|E]. { by destruct s. }
  destruct (padding_cases s Hm) as (s0&c2&c1&->&->); [by destruct s|].
  rewrite app_length. simpl length. unfold bind.
  assert (forall y : S, at_ ((s0 ++ [c2; c1]) ++ [0]) (length s0 + 2 - 1) y = Done (c1, y)) as H1.
  { intros y. rewrite <-app_assoc. simpl. rewrite <-(at_app1 s0 (length s0) c2 c1 [0]) by done. f_equal. lia. }
  assert (forall y : S, at_ ((s0 ++ [c2; c1]) ++ [0]) (length s0 + 2 - 2) y = Done (c2, y)) as H2.
  { intros y. rewrite <-app_assoc. simpl. rewrite <-(at_app s0 (length s0) c2 [c1; 0]) by done. f_equal. lia. }
  rewrite H1. destruct (Z.eqb_spec c1 61) as [->|N1].
  - rewrite decide_True by done. rewrite H2. unfold ret. destruct (Z.eqb_spec c2 61) as [->|N2].
    + rewrite decide_True by done. do 2 f_equal. lia.
    + rewrite decide_False by done. do 2 f_equal. 
  - rewrite decide_False by done. unfold ret. do 2 f_equal. lia.
Qed.

Lemma leading_le_app s : (length (leading_digits s) <= length s)%nat.
Proof. induction s as [|c s IH]; simpl; [lia|]. destruct (value_of c); simpl; lia. Qed.
Lemma leading_stop s c t : value_of c = None -> (length (leading_digits (s ++ c :: t)) <= length s)%nat.
Proof.
  intros H. induction s as [|x s IH]; simpl; [by rewrite H|]. destruct (value_of x); simpl; lia.
Qed.
Lemma value_of_pad : value_of PAD = None.
Proof. reflexivity. Qed.
Lemma leading_padding s : (length s mod 4 = 0)%nat -> (length (leading_digits s) + padding s <= length s)%nat.
Proof.
  intros Hm. destruct (decide (s = [])) as [->|Hne]; [done|].
  destruct (padding_cases s Hm Hne) as (s0&c2&c1&->&->). rewrite app_length. simpl length.
  destruct (decide (c1 = PAD)) as [->|].
  - destruct (decide (c2 = PAD)) as [->|].
    + pose proof (leading_stop s0 PAD [PAD] value_of_pad). lia.
    + pose proof (leading_stop (s0 ++ [c2]) PAD [] value_of_pad) as H. rewrite <-app_assoc, app_length in H. simpl in H. lia.
  - pose proof (leading_le_app (s0 ++ [c2; c1])) as H. rewrite app_length in H. simpl in H. lia.
Qed.

Lemma padding_le s : (padding s <= 2)%nat.
Proof. unfold padding. repeat case_match; lia. Qed.
Lemma padding_small s : (length s < 2)%nat -> padding s = 0%nat.
Proof.
  intros H. unfold padding. destruct (reverse s) as [|a [|b l]] eqn:E; [done..|].
  apply (f_equal length) in E. rewrite reverse_length in E. simpl in E. lia.
Qed.

Theorem decode_exact s : no_nul s -> (length s mod 4 = 0)%nat ->
  Azure_Base64_Decode true true (Some (s ++ [0]))
  = Done (Some (bytes_block (digits_bytes (leading_digits s)) ++
                replicate (length s / 4 * 3 - padding s - length (digits_bytes (leading_digits s))) None)).
Proof.
  intros Hs Hm. unfold Azure_Base64_Decode. rewrite strlen_ok by done.
  destruct (Nat.eqb_spec (length s mod 4) 0); [|done]. simpl negb. cbv beta iota.
  rewrite decode_len_ok by done.
  pose proof (leading_padding s Hm) as H1. pose proof (padding_le s) as H2.
  destruct (Nat.ltb_spec 0 (length s / 4 * 3 - padding s)) as [Hlt|Hge].
  - rewrite Base64decode_ok; [done|done|]. rewrite db_length. lia.
  - assert (length s = 0)%nat as Hl by lia. destruct s; [|done]. done.
Qed.
Theorem decode_fail s new_ok build_ok : no_nul s ->
  (length s mod 4 <> 0)%nat \/ new_ok = false \/ (build_ok = false /\ s <> []) ->
  Azure_Base64_Decode new_ok build_ok (Some (s ++ [0])) = Done None.
Proof.
  intros Hs H. unfold Azure_Base64_Decode. rewrite strlen_ok by done.
  destruct (Nat.eqb_spec (length s mod 4) 0) as [E|E]; [|done]. simpl negb. cbv beta iota.
  destruct new_ok; [|done]. simpl. rewrite decode_len_ok by done. destruct H as [?|[?|[-> Hne]]]; [done..|].
  pose proof (padding_le s). destruct (Nat.ltb_spec 0 (length s / 4 * 3 - padding s)) as [Hlt|Hge]; [done|].
  destruct s; [done|]. simpl length in *. lia.
Qed.
Theorem decode_wf s : no_nul s -> well_formed s ->
  Azure_Base64_Decode true true (Some (s ++ [0])) = Done (Some (bytes_block (digits_bytes (leading_digits s)))).
Proof.
  intros Hs [Hm Hl]. rewrite decode_exact by done. do 2 f_equal.
  pose proof (padding_le s). pose proof (leading_padding s Hm).
  assert ((length s / 4 * 3 - padding s - length (digits_bytes (leading_digits s)))%nat = 0%nat) as ->.
  { rewrite db_length. lia. }
  simpl. by rewrite app_nil_r.
Qed.

(** ** Round trip *)
Lemma rfc_no_nul l : all_bytes l -> no_nul (rfc4648 l).
Proof.
  induction l as [|a|a b|a b c l IH] using list3_ind; intros Hb; unfold no_nul.
  - constructor.
  - apply Forall_cons in Hb as [Ha _]. rewrite rfc1 by done. unfold is_byte in *.
    repeat (constructor; [first [by unfold PAD|apply digit_byte; lia]|]). constructor.
  - apply Forall_cons in Hb as [Ha Hb]. apply Forall_cons in Hb as [Hb _]. rewrite rfc2 by done. unfold is_byte in *.
    repeat (constructor; [first [by unfold PAD|apply digit_byte; lia]|]). constructor.
  - apply Forall_cons in Hb as [Ha Hb]. apply Forall_cons in Hb as [Hb Hc]. apply Forall_cons in Hc as [Hc Hl].
    rewrite rfc3 by done. unfold is_byte in *.
    repeat (constructor; [first [by unfold PAD|apply digit_byte; lia]|]). by apply IH.
Qed.
Lemma rfc_decodes l : all_bytes l -> digits_bytes (leading_digits (rfc4648 l)) = l.
Proof.
  induction l as [|a|a b|a b c l IH] using list3_ind; intros Hb.
  - done.
  - apply Forall_cons in Hb as [Ha _]. rewrite rfc1 by done. unfold is_byte in *. cbn [leading_digits].
    rewrite !value_of_digit by lia. rewrite value_of_pad. rewrite db2 by lia. f_equal. lia.
  - apply Forall_cons in Hb as [Ha Hb]. apply Forall_cons in Hb as [Hb _]. rewrite rfc2 by done. unfold is_byte in *. cbn [leading_digits].
    rewrite !value_of_digit by lia. rewrite value_of_pad. rewrite db3 by lia. eqs.
  - apply Forall_cons in Hb as [Ha Hb]. apply Forall_cons in Hb as [Hb Hc]. apply Forall_cons in Hc as [Hc Hl].
    rewrite rfc3 by done. unfold is_byte in *. cbn [leading_digits].
    rewrite !value_of_digit by lia. rewrite db4 by lia. rewrite IH by done. eqs.
Qed.
Lemma padding_app p s : (2 <= length s)%nat -> padding (p ++ s) = padding s.
Proof.
  intros H. unfold padding. rewrite reverse_app. destruct (reverse s) as [|a [|b l]] eqn:E; [| |done];
    apply (f_equal length) in E; rewrite reverse_length in E; simpl in E; lia.
Qed.
Lemma rfc_padding l : all_bytes l -> padding (rfc4648 l) = ((3 - length l mod 3) mod 3)%nat.
Proof.
  induction l as [|a|a b|a b c l IH] using list3_ind; intros Hb.
  - done.
  - apply Forall_cons in Hb as [Ha _]. rewrite rfc1 by done. done.
  - apply Forall_cons in Hb as [Ha Hb]. apply Forall_cons in Hb as [Hb _]. rewrite rfc2 by done. unfold is_byte in *. unfold padding. simpl.
    rewrite decide_False; [done|]. apply digit_not_pad. lia.
  - apply Forall_cons in Hb as [Ha Hb]. apply Forall_cons in Hb as [Hb Hc]. apply Forall_cons in Hc as [Hc Hl].
    rewrite rfc3 by done. unfold is_byte in *.
    transitivity (padding (rfc4648 l)).
    + destruct (decide (l = [])) as [->|Hne].
      * unfold padding. simpl. rewrite decide_False; [done|]. apply digit_not_pad. lia.
      * apply (padding_app [_; _; _; _]). rewrite rfc_length. destruct l; [done|]. simpl length. lia.
    + rewrite IH by done. simpl length. lia.
Qed.
Lemma rfc_wf l : all_bytes l -> well_formed (rfc4648 l).
Proof.
  intros Hb. split; [rewrite rfc_length; lia|].
  rewrite rfc_padding, rfc_length by done.
  pose proof (db_length (leading_digits (rfc4648 l))) as H. rewrite rfc_decodes in H by done.
  assert (length (leading_digits (rfc4648 l)) mod 4 <> 1)%nat; [clear H|lia]. induction l as [|a|a b|a b c l IH] using list3_ind.
  - done.
  - apply Forall_cons in Hb as [Ha _]. rewrite rfc1 by done. unfold is_byte in *. cbn [leading_digits].
    rewrite !value_of_digit by lia. rewrite value_of_pad. done.
  - apply Forall_cons in Hb as [Ha Hb]. apply Forall_cons in Hb as [Hb _]. rewrite rfc2 by done. unfold is_byte in *. cbn [leading_digits].
    rewrite !value_of_digit by lia. rewrite value_of_pad. done.
  - apply Forall_cons in Hb as [Ha Hb]. apply Forall_cons in Hb as [Hb Hc]. apply Forall_cons in Hc as [Hc Hl].
    rewrite rfc3 by done. unfold is_byte in *. cbn [leading_digits].
    rewrite !value_of_digit by lia. cbn [length]. specialize (IH Hl). lia.
Qed.
Theorem round_trip l : all_bytes l ->
  Azure_Base64_Decode true true (Some (rfc4648 l ++ [0])) = Done (Some (bytes_block l)).
Proof.
  intros Hb. rewrite decode_wf; [by rewrite rfc_decodes|by apply rfc_no_nul|by apply rfc_wf].
Qed.
Theorem decode_safe s new_ok build_ok : no_nul s ->
  exists r, Azure_Base64_Decode new_ok build_ok (Some (s ++ [0])) = Done r.
Proof.
  intros Hs. destruct (decide (length s mod 4 = 0)%nat) as [Hm|]; [|eexists; by apply decode_fail; auto].
  destruct new_ok; [|eexists; by apply decode_fail; auto].
  destruct build_ok; [eexists; by apply decode_exact|].
  destruct (decide (s = [])) as [->|]; [by eexists|]. eexists; apply decode_fail; auto.
Qed.
