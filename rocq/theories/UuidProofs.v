From Coq Require Import String.
From Verif Require Import Common Block BlockFacts Base64Spec UuidModel UuidSpec.
From Verif Require Base64Proofs.
Local Open Scope Z_scope.
Local Open Scope cmonad_scope.
Ltac Zify.zify_post_hook ::= Z.div_mod_to_equations.

Lemma hex_value_ok c : 0 <= c <= 255 -> isHexDigit c = hex_value c.
Proof.
  intros H. eapply bool_decide_eq_true_1.
  refine (Base64Proofs.range_forall 256 (fun c => bool_decide (isHexDigit c = hex_value c)) _ c _); [vm_compute; reflexivity|lia].
Qed.
Lemma isHex_bound c v : isHexDigit c = Some v -> 0 <= v < 16.
Proof. unfold isHexDigit. repeat case_match; intros; simplify_eq; lia. Qed.
Lemma hexchar_ok v : 0 <= v < 16 -> hex_value (hexchar v) = Some v /\ 0 < hexchar v <= 255.
Proof.
  intros H. split; [|unfold hexchar; case_match; lia]. eapply bool_decide_eq_true_1.
  refine (Base64Proofs.range_forall 16 (fun v => bool_decide (hex_value (hexchar v) = Some v)) _ v _); [vm_compute; reflexivity|lia].
Qed.

Lemma hexchar_lower v : 0 <= v < 16 -> hexchar v ∈ codes "0123456789abcdef-".
Proof.
  intros H. eapply bool_decide_eq_true_1. refine (Base64Proofs.range_forall 16 (fun v => bool_decide (hexchar v ∈ codes "0123456789abcdef-")) _ v _); [vm_compute; reflexivity|lia].
Qed.
Lemma lower_byte c : c ∈ codes "0123456789abcdef-" -> 0 < c <= 255.
Proof. revert c. apply Forall_forall. repeat (constructor; [by vm_compute|]). constructor. Qed.

(** A text that can be scanned for n characters: long enough, or terminated. *)
Definition scannable (n : nat) (s : list Z) : Prop := (n <= length s)%nat \/ 0 ∈ s.

Lemma scannable_step n c s : c <> 0 -> scannable (S n) (c :: s) -> scannable n s.
Proof. intros Hc [H|H]; [left; simpl in H; lia|]. right. apply elem_of_cons in H as [H|H]; [by subst|done]. Qed.
Lemma scannable_nonempty n s : scannable (S n) s -> exists c s', s = c :: s'.
Proof. destruct s as [|c s]; [|eauto]. intros [H|H]; [simpl in H; lia|by apply elem_of_nil in H]. Qed.

(** [d] bytes of the destination are written with w, the rest is whatever it was. *)
Lemma put_wr d w v b : d = length w -> (length w < length b)%nat ->
  wr d v (put_at 0 w b) = Done (tt, put_at 0 (w ++ [v]) b).
Proof.
  intros -> H. rewrite wr_ok by (rewrite put_at_length; simpl; lia). do 2 f_equal.
  unfold put_at. simpl. unfold bytes_block. rewrite fmap_app, app_length. simpl.
  rewrite insert_app_r_alt by (rewrite fmap_length; lia). rewrite fmap_length, Nat.sub_diag.
  destruct (drop (length w) b) as [|x r] eqn:E.
  { apply (f_equal length) in E. rewrite drop_length in E. simpl in E. lia. }
  simpl. rewrite <-app_assoc. simpl. f_equal. f_equal.
  rewrite <-drop_drop, E. done.
Qed.

Lemma parse_ok n : forall pre s m w b p d,
  all_bytes s -> scannable (2 * n + m) s -> p = length pre -> d = length w -> (length w + n <= length b)%nat ->
  match hex_bytes n s with
  | Some (bs, s') => parseHexString (pre ++ s) p n d (put_at 0 w b) = Done (true, put_at 0 (w ++ bs) b) /\
      length bs = n /\ all_bytes bs /\ exists pre', pre ++ s = pre' ++ s' /\ length pre' = (p + 2 * n)%nat /\ all_bytes s' /\ scannable m s'
  | None => exists w', parseHexString (pre ++ s) p n d (put_at 0 w b) = Done (false, put_at 0 w' b) /\ (length w' <= length w + n)%nat
  end.
Proof.
  induction n as [|n IH]; intros pre s m w b p d Hb Hs Hp Hd Hl; simpl.
  - rewrite app_nil_r. split; [done|]. split; [done|]. split; [constructor|]. exists pre. repeat split; try done; lia.
  - replace (2 * S n + m)%nat with (S (S (2 * n + m))) in Hs by lia.
    apply scannable_nonempty in Hs as Hx. destruct Hx as (h&s1&->). apply Forall_cons in Hb as [Hh Hb]. unfold is_byte in Hh.
    assert (Hno : isHexDigit h = None -> exists w', parseHexString (pre ++ h :: s1) p (S n) d (put_at 0 w b) = Done (false, put_at 0 w' b) /\ (length w' <= length w + S n)%nat).
    { intros Hn. exists w. cbn [parseHexString]. unfold isHexByte, bind. rewrite at_app by done. rewrite Hn. split; [done|lia]. }
    destruct (isHexDigit h) as [hv|] eqn:Eh.
    2:{ rewrite hex_value_ok in Eh by lia. rewrite Eh. destruct s1; by apply Hno. }
    assert (h <> 0) by (intros ->; discriminate).
    apply scannable_step in Hs; [|done]. apply scannable_nonempty in Hs as Hx. destruct Hx as (l&s2&->).
    apply Forall_cons in Hb as [Hlb Hb]. unfold is_byte in Hlb.
    rewrite <-hex_value_ok, Eh by lia. rewrite <-(hex_value_ok l) by lia.
    destruct (isHexDigit l) as [lv|] eqn:El.
    2:{ exists w. cbn [parseHexString]. unfold isHexByte, bind. rewrite at_app by done. rewrite Eh.
        rewrite Base64Proofs.at_app1 by done. rewrite El. split; [done|lia]. }
    assert (l <> 0) by (intros ->; discriminate). apply scannable_step in Hs; [|done].
    apply isHex_bound in Eh as B1. apply isHex_bound in El as B2.
    assert ((Z.shiftl hv 4 + lv) mod 256 = 16 * hv + lv) as Hval.
    { rewrite Z.shiftl_mul_pow2 by lia. lia. }
    specialize (IH (pre ++ [h; l]) s2 m (w ++ [16 * hv + lv]) b (p + 2)%nat (d + 1)%nat Hb Hs).
    rewrite !app_length in IH. simpl length in IH. rewrite <-app_assoc in IH. simpl app in IH.
    specialize (IH ltac:(lia) ltac:(lia) ltac:(lia)).
    assert (Hrun : forall k, parseHexString (pre ++ h :: l :: s2) p (S k) d (put_at 0 w b)
       = parseHexString (pre ++ h :: l :: s2) (p + 2) k (d + 1) (put_at 0 (w ++ [16 * hv + lv]) b)).
    { intros k. cbn [parseHexString]. unfold isHexByte, bind. rewrite at_app by done. rewrite Eh.
      rewrite Base64Proofs.at_app1 by done. rewrite El, Hval. rewrite put_wr by (done || lia). done. }
      destruct (hex_bytes n s2) as [[bs s']|].
    + destruct IH as (IH1&IH2&IH3&pre'&IH4&IH5&IH6&IH7). split.
      { etransitivity; [apply (Hrun n)|]. rewrite IH1. rewrite <-app_assoc. done. }
      split; [simpl; lia|]. split; [constructor; [unfold is_byte; lia|done]|]. exists pre'. repeat split; try done. lia.
    + destruct IH as (w'&IH1&IH2). exists w'. split; [|lia]. etransitivity; [apply (Hrun n)|done].
Qed.
Lemma dash_ok pre s m (b : block) p :
  scannable (S m) s -> p = length pre ->
  match dash s with
  | Some s' => is_dash (pre ++ s) p b = Done (true, b) /\ exists pre', pre ++ s = pre' ++ s' /\ length pre' = (p + 1)%nat /\ scannable m s' /\ (all_bytes s -> all_bytes s')
  | None => is_dash (pre ++ s) p b = Done (false, b)
  end.
Proof.
  intros Hs Hp. apply scannable_nonempty in Hs as Hx. destruct Hx as (c&s'&->). simpl. unfold is_dash, bind. rewrite at_app by done.
  destruct (decide (c = 45)) as [->|Hne].
  - split; [done|]. exists (pre ++ [45]). rewrite <-app_assoc, app_length. simpl. repeat split; [lia|by apply (scannable_step _ 45)|].
    intros H. by apply Forall_cons in H as [_ H].
  - destruct (Z.eqb_spec c 45); [done|]. done.
Qed.

Definition scan (s : bytes) : M block bool :=
        and_then (parseHexString s 0 4 0) (and_then (is_dash s 8)
        (and_then (parseHexString s 9 2 4) (and_then (is_dash s 13)
        (and_then (parseHexString s 14 2 6) (and_then (is_dash s 18)
        (and_then (parseHexString s 19 2 8) (and_then (is_dash s 23)
        (parseHexString s 24 6 10)))))))).
Lemma and_then_true a k b b' : a b = Done (true, b') -> and_then a k b = k b'.
Proof. intros H. unfold and_then, bind. by rewrite H. Qed.
Lemma and_then_false a k b b' : a b = Done (false, b') -> and_then a k b = Done (false, b').
Proof. intros H. unfold and_then, bind. by rewrite H. Qed.
Lemma from_string_run s b : all_bytes s -> scannable 36 s -> length b = 16%nat ->
  match uuid_of_text s with
  | Some u => (scan s b = Done (true, bytes_block u)) /\ length u = 16%nat /\ all_bytes u
  | None => exists b', scan s b = Done (false, b') /\ length b' = 16%nat
  end.
Proof.
  intros Hb Hs Hl.
  assert (Hb0 : b = put_at 0 [] b) by (by rewrite put_at_nil).
  assert (Hend : forall u, length u = 16%nat -> put_at 0 u b = bytes_block u).
  { intros u Hu. unfold put_at. simpl. rewrite drop_ge by lia. by rewrite app_nil_r. }
  unfold scan, uuid_of_text.
  pose proof (parse_ok 4 [] s 28 [] b 0 0 Hb Hs eq_refl eq_refl ltac:(simpl; lia)) as H. simpl app in H. rewrite <-Hb0 in H.
  destruct (hex_bytes 4 s) as [[b1 s1]|]; cbn [mbind option_bind].
  2:{ destruct H as (w'&H&?). eexists; split; [apply (and_then_false _ _ _ _ H)|]. rewrite put_at_length; [done|simpl in *; lia]. }
  destruct H as (H&L1&B1&p1&Hs1&Hp1&Hb1&Sc1). rewrite (and_then_true _ _ _ _ H). clear H Hs.
  rewrite Hs1. pose proof (dash_ok p1 s1 27 (put_at 0 b1 b) 8 Sc1 ltac:(lia)) as H.
  destruct (dash s1) as [s2|]; cbn [mbind option_bind].
  2:{ eexists; split; [apply (and_then_false _ _ _ _ H)|]. rewrite put_at_length; [done|simpl in *; lia]. }
  destruct H as (H&p2&Hs2&Hp2&Sc2&Hb2). specialize (Hb2 Hb1). rewrite (and_then_true _ _ _ _ H). clear H.
  rewrite Hs2. pose proof (parse_ok 2 p2 s2 23 b1 b 9 4 Hb2 Sc2 ltac:(lia) ltac:(lia) ltac:(lia)) as H.
  destruct (hex_bytes 2 s2) as [[b2 s3]|]; cbn [mbind option_bind].
  2:{ destruct H as (w'&H&?). eexists; split; [apply (and_then_false _ _ _ _ H)|]. rewrite put_at_length; [done|simpl in *; lia]. }
  destruct H as (H&L2&B2&p3&Hs3&Hp3&Hb3&Sc3). rewrite (and_then_true _ _ _ _ H). clear H.
  rewrite Hs3. pose proof (dash_ok p3 s3 22 (put_at 0 (b1 ++ b2) b) 13 Sc3 ltac:(lia)) as H.
  destruct (dash s3) as [s4|]; cbn [mbind option_bind].
  2:{ eexists; split; [apply (and_then_false _ _ _ _ H)|]. rewrite put_at_length; [done|simpl]. rewrite app_length; lia. }
  destruct H as (H&p4&Hs4&Hp4&Sc4&Hb4). specialize (Hb4 Hb3). rewrite (and_then_true _ _ _ _ H). clear H.
  rewrite Hs4. pose proof (parse_ok 2 p4 s4 18 (b1 ++ b2) b 14 6 Hb4 Sc4 ltac:(lia) ltac:(rewrite !app_length; lia) ltac:(rewrite !app_length; lia)) as H.
  destruct (hex_bytes 2 s4) as [[b3 s5]|]; cbn [mbind option_bind].
  2:{ destruct H as (w'&H&?). eexists; split; [apply (and_then_false _ _ _ _ H)|]. rewrite put_at_length; [done|simpl]. rewrite !app_length in *; lia. }
  destruct H as (H&L3&B3&p5&Hs5&Hp5&Hb5&Sc5). rewrite (and_then_true _ _ _ _ H). clear H.
  rewrite Hs5. pose proof (dash_ok p5 s5 17 (put_at 0 ((b1 ++ b2) ++ b3) b) 18 Sc5 ltac:(lia)) as H.
  destruct (dash s5) as [s6|]; cbn [mbind option_bind].
  2:{ eexists; split; [apply (and_then_false _ _ _ _ H)|]. rewrite put_at_length; [done|simpl]. rewrite !app_length; lia. }
  destruct H as (H&p6&Hs6&Hp6&Sc6&Hb6). specialize (Hb6 Hb5). rewrite (and_then_true _ _ _ _ H). clear H.
  rewrite Hs6. pose proof (parse_ok 2 p6 s6 13 ((b1 ++ b2) ++ b3) b 19 8 Hb6 Sc6 ltac:(lia) ltac:(rewrite !app_length; lia) ltac:(rewrite !app_length; lia)) as H.
  destruct (hex_bytes 2 s6) as [[b4 s7]|]; cbn [mbind option_bind].
  2:{ destruct H as (w'&H&?). eexists; split; [apply (and_then_false _ _ _ _ H)|]. rewrite put_at_length; [done|simpl]. rewrite !app_length in *; lia. }
  destruct H as (H&L4&B4&p7&Hs7&Hp7&Hb7&Sc7). rewrite (and_then_true _ _ _ _ H). clear H.
  rewrite Hs7. pose proof (dash_ok p7 s7 12 (put_at 0 (((b1 ++ b2) ++ b3) ++ b4) b) 23 Sc7 ltac:(lia)) as H.
  destruct (dash s7) as [s8|]; cbn [mbind option_bind].
  2:{ eexists; split; [apply (and_then_false _ _ _ _ H)|]. rewrite put_at_length; [done|simpl]. rewrite !app_length; lia. }
  destruct H as (H&p8&Hs8&Hp8&Sc8&Hb8). specialize (Hb8 Hb7). rewrite (and_then_true _ _ _ _ H). clear H.
  rewrite Hs8. pose proof (parse_ok 6 p8 s8 0 (((b1 ++ b2) ++ b3) ++ b4) b 24 10 Hb8 Sc8 ltac:(lia) ltac:(rewrite !app_length; lia) ltac:(rewrite !app_length; lia)) as H.
  destruct (hex_bytes 6 s8) as [[b5 s9]|]; cbn [mbind option_bind].
  2:{ destruct H as (w'&H&?). exists (put_at 0 w' b). split; [apply H|]. rewrite put_at_length; [done|simpl]. rewrite !app_length in *; lia. }
  destruct H as (H&L5&B5&p9&Hs9&Hp9&Hb9&Sc9). rewrite H.
  rewrite !app_assoc. split; [|split].
  - rewrite Hend; [done|]. rewrite !app_length. lia.
  - rewrite !app_length. lia.
  - unfold all_bytes. rewrite !Forall_app. done.
Qed.

Theorem from_string_ok s b : all_bytes s -> scannable 36 s -> length b = 16%nat ->
  match uuid_of_text s with
  | Some u => uuid_from_string (Some s) true b = Done (UUID_FROM_STRING_RESULT_OK, bytes_block u) /\ length u = 16%nat /\ all_bytes u
  | None => exists b', uuid_from_string (Some s) true b = Done (UUID_FROM_STRING_RESULT_INVALID_DATA, b') /\ length b' = 16%nat
  end.
Proof.
  intros Hb Hs Hl. pose proof (from_string_run s b Hb Hs Hl) as H. 
  assert (uuid_from_string (Some s) true b = (let* ok := scan s in ret (if (ok : bool) then UUID_FROM_STRING_RESULT_OK else UUID_FROM_STRING_RESULT_INVALID_DATA)) b)
    as -> by reflexivity.
  unfold bind. destruct (uuid_of_text s).
  - destruct H as [-> H]. done.
  - destruct H as (b'&->&H). eauto.
Qed.

Lemma hex_bytes_print u s : all_bytes u -> hex_bytes (length u) (concat (print_byte <$> u) ++ s) = Some (u, s).
Proof.
  induction 1 as [|b u Hb _ IH]; [done|]. unfold is_byte in Hb.
  change (concat (print_byte <$> b :: u) ++ s) with (hexchar (b / 16) :: hexchar (b mod 16) :: (concat (print_byte <$> u) ++ s)). cbn [length hex_bytes].
  destruct (hexchar_ok (b / 16)) as [-> _]; [lia|]. destruct (hexchar_ok (b mod 16)) as [-> _]; [lia|]. rewrite IH.
  do 3 f_equal. lia.
Qed.
Theorem to_string_text u : all_bytes u -> length u = 16%nat ->
  exists t, uuid_to_string true u = Some (t ++ [0]) /\ length t = 36%nat /\ Forall (fun c => c ∈ codes "0123456789abcdef-") t /\ uuid_of_text (t ++ [0]) = Some u.
Proof.
  intros Hb Hl. do 17 (destruct u as [|? u]; [try done|]); [|done]. unfold uuid_to_string. cbn [take drop].
  eexists (concat (print_byte <$> [_; _; _; _]) ++ [45] ++ concat (print_byte <$> [_; _]) ++ [45] ++ concat (print_byte <$> [_; _]) ++ [45] ++
     concat (print_byte <$> [_; _]) ++ [45] ++ concat (print_byte <$> [_; _; _; _; _; _])). split; [rewrite <-!app_assoc; reflexivity|].
  split; [reflexivity|]. unfold all_bytes in Hb. rewrite !Forall_cons in Hb. destruct_and! Hb.
  split.
  { simpl. unfold is_byte in *. assert (45 ∈ codes "0123456789abcdef-") as H45 by (eapply bool_decide_eq_true_1; vm_compute; reflexivity).
    repeat (constructor; [first [exact H45 | apply hexchar_lower; lia]|]). constructor. }
  assert (P : forall n u s, length u = n -> all_bytes u -> hex_bytes n (concat (print_byte <$> u) ++ s) = Some (u, s)).
  { intros n u s <-. apply hex_bytes_print. }
  unfold uuid_of_text. rewrite <-!app_assoc. unfold all_bytes in P.
  rewrite P by (done || (rewrite ?Forall_cons, Forall_nil; auto)). cbn [mbind option_bind app dash]. rewrite decide_True by done. cbn [mbind option_bind].
  do 3 (rewrite P by (done || (rewrite ?Forall_cons, Forall_nil; auto)); cbn [mbind option_bind app dash]; rewrite decide_True by done; cbn [mbind option_bind]).
  rewrite P by (done || (rewrite ?Forall_cons, Forall_nil; auto 10)). done.
Qed.
Theorem round_trip u uuid : all_bytes u -> length u = 16%nat -> length uuid = 16%nat ->
  exists s, uuid_to_string true u = Some s /\ uuid_from_string (Some s) true uuid = Done (UUID_FROM_STRING_RESULT_OK, bytes_block u).
Proof.
  intros Hu Hl Hl'. destruct (to_string_text u Hu Hl) as (t&Ht&Hlt&Hz&Hd). exists (t ++ [0]). split; [done|].
  pose proof (from_string_ok (t ++ [0]) uuid) as H. rewrite Hd in H. apply H; try done.
  - unfold all_bytes. apply Forall_app. split; [|constructor; [unfold is_byte; lia|constructor]].
    eapply Forall_impl; [exact Hz|]. intros c Hc%lower_byte. unfold is_byte. lia.
  - right. apply elem_of_app. right. by apply elem_of_list_singleton.
Qed.
