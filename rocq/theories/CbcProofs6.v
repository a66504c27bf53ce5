(** Proofs for CbcProps: slices in bytes; all the calls together. *)
From Verif Require Import CslRules Rc CslPool.
From Verif Require Import Common Block CMem Prog CbcModel CbcSpec CbcProofs CbcProofs2 CbcProofs3 CbcProofs4 CbcProofs5.

Lemma last_app_one {A} (l : list A) x d : List.last (l ++ [x]) d = x.
Proof. apply List.last_last. Qed.
Lemma slice_ok_many c cs d s k : slice_ok (c :: cs ++ [d]) s k <-> (s <= len c /\ k <= len d)%Z.
Proof.
  assert (slice_ok (c :: cs ++ [d]) s k = (s <= len c /\ k <= len (List.last (cs ++ [d]) []))%Z) as -> by by destruct cs. by rewrite last_app_one.
Qed.
Lemma slice_bytes_many c cs d s k : slice_bytes (c :: cs ++ [d]) s k = drop (Z.to_nat s) c :: cs ++ [take (Z.to_nat k) d].
Proof.
  assert (slice_bytes (c :: cs ++ [d]) s k = drop (Z.to_nat s) c :: removelast (cs ++ [d]) ++ [take (Z.to_nat k) (List.last (cs ++ [d]) [])]) as -> by by destruct cs. by rewrite last_app_one removelast_last.
Qed.
Lemma map_many {A B} (g : A -> B) x l y : map g (x :: l ++ [y]) = g x :: map g l ++ [g y].
Proof. simpl. by rewrite map_app. Qed.
Lemma inner_many {A} (x : A) l y : inner (x :: l ++ [y]) = l.
Proof. unfold inner. simpl. apply removelast_last. Qed.
Lemma part_shape {A} (l : list A) i m : i + S (S m) <= length l ->
  exists x y, l !! i = Some x /\ l !! (i + S m) = Some y /\ take (S (S m)) (drop i l) = x :: take m (drop (S i) l) ++ [y].
Proof.
  intros Hl. destruct (lookup_lt_is_Some_2 l i) as [x Hx]; [lia|]. destruct (lookup_lt_is_Some_2 l (i + S m)) as [y Hy]; [lia|]. exists x, y. split; [done|]. split; [done|].
  rewrite (drop_S _ _ _ Hx). cbn [firstn]. f_equal. rewrite (take_S_r _ m y) //. rewrite lookup_drop. by rewrite Nat.add_succ_l -Nat.add_succ_r.
Qed.
Lemma makes_le {A} (ok : Prop) (r : option A) f f1 f' : f <= f1 -> makes ok r f1 f' -> makes ok r f f'.
Proof. intros Hf [H1 H2]. split; [|done]. intros Ho Hr. specialize (H1 Ho Hr). lia. Qed.
Lemma makes_iff {A} (ok ok' : Prop) (r : option A) f f' : (ok <-> ok') -> makes ok r f f' -> makes ok' r f f'.
Proof. intros E [H1 H2]. split; [intros Ho; apply H1; by apply E|]. intros Hn. apply H2. by rewrite E. Qed.
Lemma makes_and {A} (p ok : Prop) (r : option A) f f' : p -> makes ok r f f' -> makes (p /\ ok) r f f'.
Proof. intros Hp. apply makes_iff. tauto. Qed.

Lemma share_built' a N l : N = len l -> (len l <= UINT32_MAX)%Z -> building a N l 0 -∗ bufs l -∗ upd CInv (own (Arr a l)).
Proof. intros ->. apply share_built. Qed.
Section slice.
Context (o : positive) (l : list buf) (i n skip keep : Z) (f : nat) (Hal : allowed (Slice (Some (o, l)) i n skip keep)).
Notation call := (Slice (Some (o, l)) i n skip keep).
Notation part := (take (Z.to_nat n) (drop (Z.to_nat i) l)).
Notation ok := (slice_ok (map snd part) skip keep).
Notation fits := (i + n <= len l)%Z.
(** The caller looks at the result. *)
Lemma slice_done x l' f1 : f <= f1 -> fits -> ok -> map snd l' = slice_bytes (map snd part) skip keep -> map fst (inner l') = map fst (inner part) ->
  hold [Arr x l'; Arr o l] ⊢ cwp CInv (let* n := constbuffer_array_get_buffer_count (Some x) true in let* l := look x 0 (Z.to_nat (default 0%Z n)) in Ret (RArr (Some (x, l))))%prog f1 (answer lib own answers call f).
Proof.
  intros Hf Hfit Hok H1 H2. iIntros "H". unfold constbuffer_array_get_buffer_count. sub. sub. assert (Hin : Arr x l' ∈ [Arr x l'; Arr o l]) by left. iApply (f_node _ _ x l' with "H"); [done|]. iIntros (m f2) "(%Hf2&%Hm&%Hl) H". done_with.
  rewrite Hm. cbn [default from_option id]. rewrite len_nat. sub. iApply (cwp_look _ x l' with "H"); [done|apply tail_all|]. iIntros (f3) "%Hf3 H". iApply (finish call); [lia| |iFrame "H"].
  simpl. split; [by apply makes_some|]. by intros ?? [= <- <-].
Qed.
Lemma cwp_fill (Q : unit -> nat -> cP) a N sb eb st cnt m : forall ys k j f', j = length ys -> j <> 0 -> j + S m = cnt -> st + cnt <= length l ->
  hold [Arr o l] -∗ building a N ys (S m + k) -∗ (∀ f'', ⌈f' <= f''⌉ -∗ hold [Arr o l] -∗ building a N (ys ++ take m (drop (st + j) l) ++ [eb]) k -∗ bufs (take m (drop (st + j) l)) -∗ Q tt f'') -∗
  cwp CInv (fill_slice o a st cnt sb eb.1 j (S m)) f' Q.
Proof.
  assert (Hin : Arr o l ∈ [Arr o l]) by left. induction m as [|m IH]; intros ys k j f' Hj Hj0 Hc Hl; iIntros "H H1 HQ"; cbn [fill_slice].
  - destruct (decide (j = 0)) as [|_]; [done|]. destruct (decide (j = cnt - 1)) as [_|Hne]; [|lia]. sub. iApply (cwp_append with "H1"); [done|]. iIntros (f2) "%Hf2 H1". done_with. iApply ("HQ" with "[//] H H1"). iApply bufs_nil.
  - destruct (decide (j = 0)) as [|_]; [done|]. destruct (decide (j = cnt - 1)) as [He|_]; [lia|]. destruct (lookup_lt_is_Some_2 l (st + j)) as [x Hx]; [lia|].
    sub. sub. iApply (f_read _ _ o l with "H"); [done..|]. iIntros (f2) "%Hf2 H". sub. iApply (f_inc with "H"); [apply (reaches_arr _ o l); [done|by eapply elem_of_list_lookup_2]|]. iIntros (f3) "%Hf3 H Hx". iApply (cwp_append with "H1"); [done|]. iIntros (f4) "%Hf4 H1".
    iApply (IH (ys ++ [x]) k (S j) with "H H1"); [rewrite app_length; simpl; lia|done|lia|done|]. iIntros (f5) "%Hf5 H H1 H2". rewrite -app_assoc. rewrite (drop_S _ _ _ Hx). cbn [firstn app]. rewrite Nat.add_succ_r.
    iApply ("HQ" with "[] H H1 [Hx H2]"); [iPureIntro; lia|]. rewrite bufs_cons. iFrame.
Qed.
Lemma spec_slice_some : hold [Arr o l] ⊢ goal_of call f.
Proof.
  destruct Hal as (Hi&Hn&Hs&Hk). assert (Hn' : is_u32 n) by (unfold is_u32; lia). iIntros "H". unfold run, constbuffer_array_create_from_buffer_offset_and_count. cbn [handle]. assert (Hin : Arr o l ∈ [Arr o l]) by left.
  sub. sub. iApply (f_node [Arr o l] with "H"); [done|]. iIntros (d f1) "(%Hf1&%Hd&%Hl) H". rewrite Hd range_check; [|done..|by apply len_u32]. case_bool_decide as Hfit.
  { done_with. iApply (finish call); [done|split; [apply makes_bad; simpl; tauto|done]|iFrame "H"]. }
  assert (Hlen : Z.to_nat i + Z.to_nat n <= length l) by (unfold len, is_u32 in *; lia).
  assert (Elast : Z.to_nat (u32 (len l - 1)) = length l - 1). { rewrite u32_small; unfold is_u32, len in *; lia. } rewrite Elast. destruct (lookup_lt_is_Some_2 l (length l - 1)) as [z Hz]; [lia|].
  assert (Hre : forall j x, l !! j = Some x -> reaches [Arr o l] x). { intros j x Hx. apply (reaches_arr _ o l); [done|by eapply elem_of_list_lookup_2]. }
  sub. iApply (f_read _ _ o l with "H"); [done..|]. iIntros (f2) "%Hf2 H". sub. iApply (f_content with "H"); [by eapply Hre|]. iIntros (f3) "[%Hf3 %Hlz] H". fold (len z.2).
  assert (Hfail : forall f', f <= f' -> makes ok (A := positive * list buf) None f f' -> answers call (RArr None) f f').
  { intros f' Hf' Hm. split; [|done]. apply (makes_iff (fits /\ ok)); [simpl; split; [intros [? ?]; by split|intros (_&?&?); by split]|]. by apply makes_and. }
  destruct (decide _) as [(En&Es0&Ek0)|Hne].
  { sub. iApply (f_inc_arr [Arr o l] with "H"); [done|]. iIntros (f4) "%Hf4 H H1". done_with. assert (i = 0%Z) as Ei by (unfold is_u32 in Hi; lia). assert (Ep : part = l). { rewrite Ei En len_nat. apply firstn_all. }
    assert (Hsl : ok /\ map snd l = slice_bytes (map snd part) skip keep).
    { rewrite Ep Es0 Ek0. destruct l as [|x [|x' l']]; [done| |].
      - injection Hz as ->. simpl. split; [lia|]. rewrite drop_0 len_nat firstn_all. done.
      - destruct (part_shape (x :: x' :: l') 0 (length l')) as (x0&y&Hx0&Hy&Esh); [simpl; lia|]. rewrite drop_0 in Esh. assert (Efull : take (S (S (length l'))) (x :: x' :: l') = x :: x' :: l') by (apply take_ge; simpl; lia). rewrite Efull in Esh.
        assert (Hyz : y = z). { simpl in Hy, Hz. rewrite Hy in Hz. by injection Hz. } rewrite Esh map_many slice_ok_many slice_bytes_many. subst y. split; [unfold len; lia|]. simpl. by rewrite len_nat firstn_all. }
    iApply (slice_done o l); [lia|done|by apply Hsl|by apply Hsl|by rewrite Ep|]. rewrite !hold_cons. iFrame. }
  clear Hne Hz z Hlz Elast. sub. iApply cwp_new_array. iSplit.
  2: { iIntros (f4) "%Hf4". done_with. iApply (finish call); [lia|apply Hfail; [lia|apply makes_fail; lia]|iFrame "H"]. }
  iIntros (a f4) "%Hf4 H1". destruct (decide (n = 1)%Z) as [En|En].
  - destruct (lookup_lt_is_Some_2 l (Z.to_nat i)) as [x Hx]; [lia|]. assert (Ep : part = [x]). { rewrite En (drop_S _ _ _ Hx). done. }
    sub. iApply (f_read _ _ o l with "H"); [done..|]. iIntros (f5) "%Hf5 H". sub. iApply (f_slice with "H"); [by eapply Hre|done..|]. iIntros (r f6) "[%Hf6 %Hm] H H2". destruct r as [b|].
    + sub. assert (En1 : Z.to_nat n = 1) by lia. rewrite En1. iApply (cwp_append _ _ _ _ _ (b, take (Z.to_nat keep) (drop (Z.to_nat skip) x.2)) with "H1"); [done|]. iIntros (f7) "%Hf7 H1". cbn [app].
      iMod (share_built' a n [(b, take (Z.to_nat keep) (drop (Z.to_nat skip) x.2))] with "H1 [H2]") as "H1"; [done|done|rewrite bufs_one; iFrame "H2"|]. done_with.
      assert (Hok : (skip + keep <= len x.2)%Z). { destruct (decide (skip + keep <= len x.2)%Z) as [|Hc]; [done|]. destruct Hm as [_ Hm]. specialize (Hm Hc). done. }
      iApply (slice_done a [(b, take (Z.to_nat keep) (drop (Z.to_nat skip) x.2))]); [lia|done|by rewrite Ep|by rewrite Ep|by rewrite Ep|]. rewrite !hold_cons. iFrame.
    + unfold building. step. iApply (cwp_free_obj with "H1"). iIntros (f7) "%Hf7". step. done_with. iApply (finish call); [lia| |iFrame "H"]. apply Hfail; [lia|]. apply (makes_iff (skip + keep <= len x.2)%Z); [by rewrite Ep|].
      destruct Hm as [Hm1 Hm2]. split; [|done]. intros Ho Hr. specialize (Hm1 Ho eq_refl). lia.
  - assert (exists m, Z.to_nat n = S (S m)) as [m Em] by (exists (Z.to_nat n - 2); lia). destruct (part_shape l (Z.to_nat i) m) as (x&y&Hx&Hy&Ep); [lia|]. set (mid := take m (drop (S (Z.to_nat i)) l)) in *.
    assert (Hmid : length mid = m) by (unfold mid; rewrite take_length drop_length; lia).
    assert (Eok : ok <-> (skip <= len x.2 /\ keep <= len y.2)%Z). { rewrite Em Ep map_many. apply slice_ok_many. }
    sub. iApply (f_read _ _ o l with "H"); [done..|]. iIntros (f5) "%Hf5 H". sub. iApply (f_content with "H"); [by eapply Hre|]. iIntros (f6) "[%Hf6 %Hlx] H". fold (len x.2).
    assert (Hsz : is_u32 (u32 (len x.2 - skip))). { unfold is_u32, u32, UINT32_MOD, UINT32_MAX. pose proof (Z.mod_pos_bound (len x.2 - skip) 4294967296). lia. }
    assert (Esz : (skip + u32 (len x.2 - skip) <= len x.2)%Z <-> (skip <= len x.2)%Z). { split; [unfold is_u32 in Hsz; lia|]. intros. rewrite u32_small; unfold is_u32 in *; lia. }
    sub. iApply (f_slice with "H"); [by eapply Hre|done..|]. iIntros (r f7) "[%Hf7 %Hm] H H2". apply (makes_iff _ _ _ _ _ Esz) in Hm. destruct r as [b|].
    2: { unfold building. step. iApply (cwp_free_obj with "H1"). iIntros (f8) "%Hf8". step. done_with. iApply (finish call); [lia| |iFrame "H"]. apply Hfail; [lia|]. destruct Hm as [Hm1 Hm2]. split; [|done]. intros Ho Hr. apply Eok in Ho as [Ho _]. specialize (Hm1 Ho eq_refl). lia. }
    assert (Hsk : (skip <= len x.2)%Z). { destruct (decide (skip <= len x.2)%Z) as [|Hc]; [done|]. destruct Hm as [_ Hm]. specialize (Hm Hc). done. }
    assert (Eb : take (Z.to_nat (u32 (len x.2 - skip))) (drop (Z.to_nat skip) x.2) = drop (Z.to_nat skip) x.2). { apply take_ge. rewrite drop_length u32_small; unfold is_u32, len in *; lia. } rewrite Eb.
    assert (Efin : Z.to_nat (u32 (i + n - 1)) = Z.to_nat i + S m). { rewrite u32_small; unfold is_u32, len in *; lia. } rewrite Efin.
    sub. iApply (f_read _ _ o l with "H"); [done..|]. iIntros (f8) "%Hf8 H". sub. iApply (f_slice with "H"); [by eapply Hre|by unfold is_u32|done|]. iIntros (r f9) "[%Hf9 %Hm'] H H3". rewrite Z.add_0_l in Hm'. destruct r as [b'|].
    2: { sub. iApply (cwp_dec_buf _ (b, _) with "H2"). iIntros (f10) "%Hf10". unfold building. step. iApply (cwp_free_obj with "H1"). iIntros (f11) "%Hf11". step. done_with. iApply (finish call); [lia| |iFrame "H"]. apply Hfail; [lia|]. destruct Hm' as [Hm1 Hm2]. split; [|done]. intros Ho Hr. apply Eok in Ho as [_ Ho]. specialize (Hm1 Ho eq_refl). lia. }
    assert (Hkp : (keep <= len y.2)%Z). { destruct (decide (keep <= len y.2)%Z) as [|Hc]; [done|]. destruct Hm' as [_ Hm']. specialize (Hm' Hc). done. } change (Z.to_nat 0) with 0. rewrite drop_0.
    set (B := (b, drop (Z.to_nat skip) x.2)). set (E := (b', take (Z.to_nat keep) y.2)). sub. rewrite Em. remember (S m) as m1 eqn:Em1. cbn [fill_slice]. destruct (decide (0 = 0)) as [_|]; [|done]. subst m1. sub. iApply (cwp_append _ _ _ _ _ B with "H1"); [done|]. iIntros (f10) "%Hf10 H1".
    iEval (rewrite -(Nat.add_0_r (S m))) in "H1". iApply (cwp_fill _ a n b E (Z.to_nat i) (S (S m)) m with "H H1"); [done|done|lia|lia|]. iIntros (f11) "%Hf11 H H1 H4". rewrite Nat.add_1_r. fold mid. cbn [app].
    assert (El : n = len (B :: mid ++ [E])). { unfold len. simpl. rewrite app_length Hmid. simpl. lia. } iMod (share_built' _ _ _ El with "H1 [H2 H3 H4]") as "H1"; [rewrite -El; lia|rewrite bufs_cons bufs_app bufs_one; iFrame|]. done_with.
    iApply (slice_done a (B :: mid ++ [E])); [lia|done|by apply Eok| | |].
    + by rewrite Em Ep !map_many slice_bytes_many.
    + by rewrite Em Ep !inner_many.
    + rewrite !hold_cons. iFrame.
Qed.
End slice.
Lemma spec_slice a i n skip keep f : allowed (Slice a i n skip keep) -> hold (hold_arr a) ⊢ goal_of (Slice a i n skip keep) f.
Proof.
  intros Hal. destruct a as [[o l]|]; [by apply spec_slice_some|]. iIntros "H". unfold run, constbuffer_array_create_from_buffer_offset_and_count. simpl. step. iApply (finish (Slice None i n skip keep)); [done|split; [by apply makes_bad; intros []|done]|done].
Qed.

Lemma all_proved o f : allowed o -> hold (uses o) ⊢ goal_of o f.
Proof.
  intros Ho. destruct o; simpl uses.
  - iIntros "_". by iApply spec_buffer.
  - by apply spec_inc.
  - by apply spec_dec.
  - by apply spec_read.
  - by apply spec_alloc.
  - by apply spec_free.
  - by apply spec_create.
  - iIntros "_". by iApply spec_empty.
  - by apply spec_move.
  - by apply spec_view.
  - by apply spec_slice.
  - by apply spec_concat.
  - by apply spec_add_front.
  - by apply spec_add_back.
  - by apply spec_remove_front.
  - by apply spec_remove_back.
  - by apply spec_count.
  - by apply spec_get.
  - by apply spec_content.
  - by apply spec_inc_arr.
  - by apply spec_dec_arr.
  - by apply spec_size.
  - by apply spec_handles.
  - by apply spec_no_empty.
  - by apply spec_same.
Qed.
