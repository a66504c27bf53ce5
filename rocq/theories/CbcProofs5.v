(** Proofs for CbcProps: the calls, continued. *)
From Verif Require Import CslRules Rc CslPool.
From Verif Require Import Common Block CMem Prog CbcModel CbcSpec CbcProofs CbcProofs2 CbcProofs3 CbcProofs4.

Lemma cwp_read_all (Q : list positive -> nat -> cP) a v n : forall i f, i + n <= length (seen v) ->
  tok (a, inr v) -∗ (∀ f', ⌈f <= f'⌉ -∗ tok (a, inr v) -∗ Q (map fst (take n (drop i (seen v)))) f') -∗ cwp CInv (read_all (aplace a v.1.1 v.2) i n) f Q.
Proof.
  revert Q. induction n as [|n IH]; intros Q i f Hn; iIntros "H HQ"; cbn [read_all].
  - done_with. by iApply "HQ".
  - destruct (lookup_lt_is_Some_2 (seen v) i) as [x Hx]; [lia|]. step. iApply (cwp_read_place with "H"); [done|]. iIntros (f1) "%Hf1 H". step. sub. iApply (IH with "H"); [lia|]. iIntros (f2) "%Hf2 H". done_with.
    rewrite (drop_S _ _ _ Hx). simpl. iApply ("HQ" with "[] H"). iPureIntro. lia.
Qed.
Lemma spec_handles a f : hold (hold_arr a) ⊢ goal_of (Handles a) f.
Proof.
  iIntros "H". unfold run, constbuffer_array_get_const_buffer_handle_array, constbuffer_array_get_buffer_count. destruct a as [[h l]|]; simpl. 2: { step. by iApply (finish (Handles None)). }
  rewrite hold_one. iDestruct "H" as (v) "[%Hv H]". destruct Hv as [Hw <-]. step. iApply (cwp_look_node with "H"). iIntros (f1) "%Hf1 H". step. iApply (cwp_look_node with "H"). iIntros (f2) "%Hf2 H". step. cbn [anode nBuffers buffers default].
  sub. rewrite len_nat. iApply (cwp_read_all with "H"); [done|]. iIntros (f3) "%Hf3 H". iApply (finish (Handles (Some (h, aview v)))); [lia| |].
  - simpl. f_equal. rewrite drop_0 firstn_all. unfold aview. by rewrite map_map.
  - simpl. rewrite hold_one. iExists v. by iFrame.
Qed.

(** Concatenation *)
Section concat.
Context (from : list held).
Notation seqs := (mapM (fmap snd)).
Lemma cwp_total_count (Q : option Z -> nat -> cP) arrays (xs : list arr) : forall i t f, is_u32 t -> Forall (covers from) xs -> (forall j x, xs !! j = Some x -> arrays !! (i + j) = Some (handle x)) ->
  hold from -∗ (∀ f', ⌈f <= f'⌉ -∗ hold from -∗ Q (match seqs xs with Some ls => if decide (t + len (concat ls) <= UINT32_MAX)%Z then Some (t + len (concat ls))%Z else None | None => None end) f') -∗
  cwp CInv (total_count arrays i (length xs) t) f Q.
Proof.
  induction xs as [|x xs IH]; intros i t f Ht Hc Hx; iIntros "H HQ"; cbn [total_count length].
  - done_with. simpl. unfold len. simpl. rewrite Z.add_0_r. destruct (decide _) as [_|Hn]; [|unfold is_u32 in Ht; lia]. by iApply "HQ".
  - inversion Hc as [|? ? Hc1 Hc2]; subst. pose proof (Hx 0 x eq_refl) as H0. rewrite Nat.add_0_r in H0. unfold item. rewrite H0. step. destruct x as [[a l]|]; simpl.
    2: { done_with. by iApply "HQ". }
    sub. iApply (f_node _ _ a l with "H"); [done|]. iIntros (n f1) "(%Hf1&%Hn&%Hl) H". rewrite Hn. unfold is_u32 in Ht. assert (Hl0 : (0 <= len l)%Z) by (unfold len; lia).
    assert (Hx' : forall j x, xs !! j = Some x -> arrays !! (S i + j) = Some (handle x)). { intros j y Hj. rewrite Nat.add_succ_l -Nat.add_succ_r. by apply Hx. }
    destruct (decide (t + len l <= UINT32_MAX)%Z) as [Hs|Hs].
    + rewrite u32_small; [|unfold is_u32; lia]. destruct (Z.ltb_spec (t + len l) (len l)); [lia|]. iApply (IH with "H"); [unfold is_u32; lia|done..|]. iIntros (f2) "%Hf2 H". destruct (seqs xs) as [ls|]; simpl.
      * replace (len (l ++ concat ls)) with (len l + len (concat ls))%Z by (unfold len; rewrite app_length; lia). rewrite Z.add_assoc. iApply ("HQ" with "[] H"). iPureIntro. lia.
      * iApply ("HQ" with "[] H"). iPureIntro. lia.
    + rewrite u32_wrap; [|lia]. destruct (Z.ltb_spec (t + len l - UINT32_MAX - 1) (len l)) as [_|]; [|lia]. done_with. destruct (seqs xs) as [ls|]; simpl; [|by iApply ("HQ" with "[//] H")].
      destruct (decide _) as [Hd|_]; [|by iApply ("HQ" with "[//] H")]. unfold len in *. rewrite app_length in Hd. lia.
Qed.
Lemma cwp_copy_arrays (Q : unit -> nat -> cP) arrays r n (xs : list arr) : forall ls ys k i d f, d = length ys -> seqs xs = Some ls -> Forall (covers from) xs -> (forall j x, xs !! j = Some x -> arrays !! (i + j) = Some (handle x)) ->
  hold from -∗ building r n ys (length (concat ls) + k) -∗ (∀ f', ⌈f <= f'⌉ -∗ hold from -∗ building r n (ys ++ concat ls) k -∗ bufs (concat ls) -∗ Q tt f') -∗
  cwp CInv (copy_arrays arrays r i d (length xs)) f Q.
Proof.
  induction xs as [|x xs IH]; intros ls ys k i d f Hd Hls Hc Hx; iIntros "H H1 HQ"; cbn [copy_arrays length].
  - injection Hls as <-. done_with. simpl. rewrite app_nil_r. iApply ("HQ" with "[//] H H1"). iApply bufs_nil.
  - inversion Hc as [|? ? Hc1 Hc2]; subst. pose proof (Hx 0 x eq_refl) as H0. rewrite Nat.add_0_r in H0. unfold item. rewrite H0. step. destruct x as [[a l]|]; [|done]. simpl in Hls. destruct (seqs xs) as [ls'|] eqn:Hls'; [|done]. injection Hls as <-. simpl.
    assert (Hx' : forall j x, xs !! j = Some x -> arrays !! (S i + j) = Some (handle x)). { intros j y Hj. rewrite Nat.add_succ_l -Nat.add_succ_r. by apply Hx. }
    sub. iApply (f_node _ _ a l with "H"); [done|]. iIntros (m f1) "(%Hf1&%Hn&%Hl) H". rewrite Hn len_nat. sub. iEval (rewrite app_length -Nat.add_assoc) in "H1".
    assert (El : take (length l) (drop 0 l) = l) by apply firstn_all. iApply (cwp_copy_arr from _ a l r n ys _ 0 (length l) with "H H1"); [done..|]. iIntros (f2) "%Hf2 H H1 H2". rewrite El.
    iApply (IH ls' (ys ++ l) with "H H1"); [by rewrite app_length|done..|]. iIntros (f3) "%Hf3 H H1 H3". rewrite -app_assoc. iApply ("HQ" with "[] H H1 [H2 H3]"); [iPureIntro; lia|]. rewrite bufs_app. iFrame.
Qed.
End concat.
Lemma spec_concat l n from f : allowed (Concat l n from) -> hold from ⊢ goal_of (Concat l n from) f.
Proof.
  intros [Hn Hl]. iIntros "H". unfold run, constbuffer_array_create_from_array_array. set (o := Concat l n from).
  assert (Hempty : n = 0%Z -> hold from ⊢ cwp CInv constbuffer_array_create_empty f (fun r f' => cwp CInv (Ret (RHandle r)) f' (answer lib own answers o f))).
  { intros ->. iIntros "H". iApply cwp_empty. iIntros (r f1) "%Hf1 H1". iApply upd_intro. iApply (finish o); [apply Hf1| |].
    - split; [intros _; apply Hf1|]. intros Hc. exfalso. apply Hc. split; [by right|]. exists []. done.
    - simpl. rewrite hold_app. iFrame. }
  sub. destruct l as [l|]; simpl.
  2: { destruct (decide (n <> 0)%Z) as [Hz|Hz]; [|iApply (Hempty with "H"); lia]. done_with. iApply (finish o); [done|apply makes_bad; by intros [[?|?] _]|done]. }
  destruct (decide (n = 0)%Z) as [Hz|Hz]; [by iApply (Hempty with "H")|]. destruct Hl as [Hl Hc]. set (xs := take (Z.to_nat n) l).
  assert (E : Z.to_nat n = length xs). { unfold xs, len, is_u32 in *. rewrite take_length. lia. } assert (Hcx : Forall (covers from) xs) by by apply Forall_take.
  assert (Hx : forall j x, xs !! j = Some x -> map handle l !! (0 + j) = Some (handle x)). { intros j x Hj. unfold xs in Hj. rewrite lookup_take_Some in Hj. destruct Hj as [Hj _]. simpl. by rewrite list_lookup_fmap Hj. }
  assert (Ej : joined (Some l) n = (fun ls => concat ls) <$> mapM (fmap snd) xs) by done.
  sub. rewrite E. iApply (cwp_total_count with "H"); [by unfold is_u32|done..|]. iIntros (f1) "%Hf1 H". destruct (mapM (fmap snd) xs) as [ls|] eqn:Els; simpl in Ej.
  2: { done_with. iApply (finish o); [done| |done]. apply makes_bad. intros (_&j&Hj&_). by rewrite Ej in Hj. }
  rewrite Z.add_0_l. destruct (decide _) as [Hs|Hs].
  2: { done_with. iApply (finish o); [done| |done]. apply makes_bad. intros (_&j&Hj&Hm). rewrite Ej in Hj. injection Hj as <-. lia. }
  assert (Hok : (Some l <> None \/ n = 0%Z) /\ exists j, joined (Some l) n = Some j /\ (len j <= UINT32_MAX)%Z). { split; [by left|]. by exists (concat ls). }
  sub. iApply cwp_new_array. iSplit.
  - iIntros (a f2) "%Hf2 H1". rewrite len_nat. iEval (rewrite -(Nat.add_0_r (length (concat ls)))) in "H1". sub. iApply (cwp_copy_arrays with "H H1"); [done..|]. iIntros (f3) "%Hf3 H H1 H2". simpl. iMod (share_built with "H1 H2") as "H1"; [done|]. done_with.
    iApply (finish o); [lia|by apply makes_some|]. simpl. rewrite Ej hold_cons. simpl. iFrame.
  - iIntros (f2) "%Hf2". done_with. iApply (finish o); [lia|apply makes_fail; lia|done].
Qed.

(** Comparison *)
Lemma cwp_same_from (from : list held) h l h' l' : Arr h l ∈ from -> Arr h' l' ∈ from -> forall xs ys (Q : bool -> nat -> cP) i f, length xs = length ys -> tail_of l i xs -> tail_of l' i ys ->
  hold from -∗ (∀ f', ⌈f <= f'⌉ -∗ hold from -∗ Q (bool_decide (map snd xs = map snd ys)) f') -∗ cwp CInv (same_from h h' i (length xs)) f Q.
Proof.
  intros Hin Hin'. induction xs as [|x xs IH]; intros [|y ys] Q i f He Hx Hy; try done; iIntros "H HQ"; cbn [same_from length].
  - done_with. by iApply "HQ".
  - destruct (tail_cons _ _ _ _ Hx) as (Hi&Hel&Hx'). destruct (tail_cons _ _ _ _ Hy) as (Hi'&Hel'&Hy'). sub. iApply (f_read _ _ h l with "H"); [done..|]. iIntros (f1) "%Hf1 H". sub. iApply (f_read _ _ h' l' with "H"); [done..|]. iIntros (f2) "%Hf2 H".
    sub. iApply (f_content with "H"); [by apply (reaches_arr _ h l)|]. iIntros (f3) "[%Hf3 _] H". sub. iApply (f_content with "H"); [by apply (reaches_arr _ h' l')|]. iIntros (f4) "[%Hf4 _] H". simpl. destruct (decide _) as [Hc|Hc].
    + iApply (IH ys with "H"); [by injection He|done..|]. iIntros (f5) "%Hf5 H". replace (bool_decide (x.2 :: map snd xs = y.2 :: map snd ys)) with (bool_decide (map snd xs = map snd ys)); [iApply ("HQ" with "[] H"); iPureIntro; lia|].
      apply bool_decide_ext. rewrite Hc. split; [by intros ->|by intros [=]].
    + done_with. rewrite bool_decide_eq_false_2; [|by intros [=]]. iApply ("HQ" with "[] H"). iPureIntro. lia.
Qed.
Lemma spec_same a a' from f : allowed (Same a a' from) -> hold from ⊢ goal_of (Same a a' from) f.
Proof.
  intros [Ha Ha']. iIntros "H". unfold run, CONSTBUFFER_ARRAY_HANDLE_contain_same. destruct a as [[h l]|], a' as [[h' l']|]; simpl.
  - simpl in Ha, Ha'. set (o := Same (Some (h, l)) (Some (h', l')) from). sub. sub. iApply (f_node _ _ h l with "H"); [done|]. iIntros (n f1) "(%Hf1&%Hn&%Hl) H". sub. iApply (f_node _ _ h' l' with "H"); [done|]. iIntros (n' f2) "(%Hf2&%Hn'&%Hl') H".
    assert (Hr : forall f', answers o (RBool (bool_decide (map snd l = map snd l'))) f f').
    { assert (bool_decide (map snd l = map snd l') = bool_decide (Some (map snd l) = Some (map snd l'))) as E by (apply bool_decide_ext; split; [by intros ->|by intros [=]]). unfold o. by rewrite E. }
    rewrite Hn Hn' len_nat. destruct (decide _) as [He|He].
    + done_with. rewrite bool_decide_eq_false_2 in Hr; [iApply (finish o); [lia|apply Hr|iFrame "H"]|]. intros Hc. apply He. unfold len. f_equal. by rewrite -(map_length snd l) Hc map_length.
    + iApply (cwp_same_from from h l h' l' Ha Ha' l l' with "H"); [unfold len in He; lia|apply tail_all..|]. iIntros (f3) "%Hf3 H". iApply (finish o); [lia|apply Hr|iFrame "H"].
  - step. by iApply (finish (Same (Some (h, l)) None from)).
  - step. by iApply (finish (Same None (Some (h', l')) from)).
  - step. by iApply (finish (Same None None from)).
Qed.
