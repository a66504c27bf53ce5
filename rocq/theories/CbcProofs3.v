(** Proofs for CbcProps: the calls, one after the other. *)
From Verif Require Import CslRules Rc CslPool.
From Verif Require Import Common Block CMem Prog CbcModel CbcSpec CbcProofs CbcProofs2.

Notation goal_of o f := (cwp CInv (run o) f (answer lib own answers o f)).
(** Ends a call. *)
Lemma finish o f r f' : f <= f' -> answers o r f f' -> hold (gives o r) ⊢ cwp CInv (Ret r) f' (answer lib own answers o f).
Proof. intros Hf Ha. iIntros "H". iApply cwp_ret. iApply upd_intro. unfold answer. iSplit; [done|]. iFrame "H". Qed.
Lemma u32_small z : is_u32 z -> u32 z = z.
Proof. unfold is_u32, u32, UINT32_MOD, UINT32_MAX. intros. apply Z.mod_small. lia. Qed.
Lemma u32_wrap z : (UINT32_MAX < z <= UINT32_MAX + UINT32_MAX)%Z -> u32 z = (z - UINT32_MAX - 1)%Z.
Proof. unfold u32, UINT32_MOD, UINT32_MAX. intros. symmetry. apply (Zmod_unique _ _ 1); lia. Qed.
Lemma makes_bad {A} (ok : Prop) f f' : ~ ok -> makes (A := A) ok None f f'.
Proof. intros Hb. split; [by intros|done]. Qed.
Lemma makes_fail {A} (ok : Prop) f f' : f < f' -> makes (A := A) ok None f f'.
Proof. intros Hf. split; [by intros _ _|done]. Qed.
Lemma makes_some {A} (ok : Prop) (x : A) f f' : ok -> makes ok (Some x) f f'.
Proof. intros Ho. split; [by intros _ ?|by intros ?]. Qed.
Lemma range_check i n N : is_u32 i -> is_u32 n -> is_u32 N -> (i >? N)%Z || (n >? u32 (N - i))%Z = bool_decide (~ (i + n <= N)%Z).
Proof.
  unfold is_u32. intros. destruct (Z.gtb_spec i N); simpl; [rewrite bool_decide_eq_true_2 //; lia|]. rewrite u32_small; [|unfold is_u32; lia].
  destruct (Z.gtb_spec n (N - i)); [rewrite bool_decide_eq_true_2 //; lia|rewrite bool_decide_eq_false_2 //; lia].
Qed.
Lemma len_nat {A} (l : list A) : Z.to_nat (len l) = length l.
Proof. unfold len. lia. Qed.
Lemma len_u32 {A} (l : list A) : (len l <= UINT32_MAX)%Z -> is_u32 (len l).
Proof. unfold is_u32, len. lia. Qed.
Lemma len_take {A} (l : list A) n : is_u32 n -> (n <= len l)%Z -> len (take (Z.to_nat n) l) = n.
Proof. unfold len, is_u32. intros. rewrite take_length. lia. Qed.

(** Buffers *)
Lemma share_buf h l : (len l <= UINT32_MAX)%Z -> lift (h ↦o OBuf l None 1) ⊢ upd CInv (own_buf (h, l)).
Proof.
  intros Hl. iIntros "H". iMod (rc_share repr holds repr_excl h (inl (l, [])) with "[H]") as "H".
  - unfold repr. simpl. rewrite lift_sep lift_emp toks_empty. by iFrame "H".
  - iApply upd_intro. iExists (l, []). by iFrame "H".
Qed.
Lemma share_slice r b bv off n : bwf bv -> lift (r ↦o OBuf (take n (drop off (bcontent bv))) (Some b) 1) -∗ tok (b, inl bv) -∗ upd CInv (own_buf (r, take n (drop off (bcontent bv)))).
Proof.
  intros Hb. destruct bv as [l vs]. iIntros "H1 H2". iMod (rc_share repr holds repr_excl r (inl (l, (b, off, n) :: vs)) with "[H1 H2]") as "H".
  - unfold repr. simpl. rewrite lift_sep lift_emp toks_tok. by iFrame "H1 H2".
  - iApply upd_intro. iExists (l, (b, off, n) :: vs). by iFrame "H".
Qed.
Lemma f_slice (from : list held) (Q : ptr -> nat -> cP) x off sz f : reaches from x -> is_u32 off -> is_u32 sz ->
  hold from -∗ (∀ r f', ⌈f <= f' /\ makes (off + sz <= len x.2)%Z r f f'⌉ -∗ hold from -∗ (match r with None => emp | Some b => own_buf (b, take (Z.to_nat sz) (drop (Z.to_nat off) x.2)) end) -∗ Q r f') -∗
  cwp CInv (CONSTBUFFER_CreateFromOffsetAndSize x.1 off sz) f Q.
Proof.
  intros Hx Ho Hs. iIntros "H HQ". unfold CONSTBUFFER_CreateFromOffsetAndSize. sub. iApply (f_content with "H"); [done|]. iIntros (f1) "[%Hf1 %Hl] H". fold (len x.2).
  assert (E : (off >? len x.2)%Z || (off >? UINT32_MAX - sz)%Z || (u32 (off + sz) >? len x.2)%Z = bool_decide (~ (off + sz <= len x.2)%Z)).
  { unfold is_u32, len in *. destruct (Z.gtb_spec off (Z.of_nat (length x.2))); [rewrite bool_decide_eq_true_2 //; lia|]. destruct (Z.gtb_spec off (UINT32_MAX - sz)); [rewrite bool_decide_eq_true_2 //; lia|].
    simpl. rewrite u32_small; [|unfold is_u32; lia]. destruct (Z.gtb_spec (off + sz) (Z.of_nat (length x.2))); [rewrite bool_decide_eq_true_2 //; lia|rewrite bool_decide_eq_false_2 //; lia]. }
  rewrite E. case_bool_decide as Hb.
  { done_with. iApply ("HQ" with "[] H []"); [|done]. iPureIntro. split; [done|by apply makes_bad]. }
  rename Hb into Hle. clear E. destruct (decide _) as [[-> ->]|Hne].
  - sub. iApply (f_inc with "H"); [done|]. iIntros (f2) "%Hf2 H Hx". done_with. iApply ("HQ" with "[] H [Hx]"); [iPureIntro; split; [lia|by apply makes_some]|]. rewrite len_nat. simpl. rewrite drop_0 firstn_all. destruct x. iFrame "Hx".
  - step. iApply cwp_new_obj. iSplit.
    + iIntros (r f2) "%Hf2 H1". step. sub. iApply (f_inc with "H"); [done|]. iIntros (f3) "%Hf3 H (%bv&%Hb&Hx)". destruct Hb as [Hb Hc]. rewrite -Hc in Hle |- *. iMod (share_slice with "H1 Hx") as "H1"; [done|]. done_with.
      iApply ("HQ" $! (Some r) with "[] H H1"). iPureIntro. split; [lia|by apply makes_some].
    + iIntros (f2) "%Hf2". step. done_with. iApply ("HQ" with "[] H []"); [|done]. iPureIntro. split; [lia|apply makes_fail; lia].
Qed.
Lemma spec_buffer l f : allowed (Buffer l) -> ⊢ goal_of (Buffer l) f.
Proof.
  intros Hl. unfold run, CONSTBUFFER_Create. step. iApply cwp_new_obj. iSplit.
  - iIntros (h f1) "%Hf1 H". step. iMod (share_buf with "H") as "H"; [done|]. iApply (finish (Buffer l)); [done..|]. simpl. rewrite hold_one. iFrame "H".
  - iIntros (f1) "%Hf1". step. iApply (finish (Buffer l)); [lia|intros _; lia|done].
Qed.
Lemma spec_inc b from f : allowed (Inc b from) -> hold from ⊢ goal_of (Inc b from) f.
Proof. intros Hb. iIntros "H". unfold run. sub. iApply (f_inc with "H"); [done|]. iIntros (f1) "%Hf1 H1 H2". iApply (finish (Inc b from)); [done..|]. simpl. rewrite hold_cons. destruct b. iFrame. Qed.
Lemma spec_dec b f : hold [to_buf b] ⊢ goal_of (Dec b) f.
Proof. iIntros "H". rewrite hold_one. unfold run. sub. destruct b as [b c]. iApply (cwp_dec_buf _ (b, c) with "H"). iIntros (f1) "%Hf1". by iApply (finish (Dec (b, c))). Qed.
Lemma spec_read b from f : allowed (Read b from) -> hold from ⊢ goal_of (Read b from) f.
Proof. intros Hb. iIntros "H". unfold run. sub. iApply (f_content with "H"); [done|]. iIntros (f1) "[%Hf1 _] H1". by iApply (finish (Read b from)). Qed.
Lemma spec_alloc l spare f : hold (map to_buf l) ⊢ goal_of (Alloc l spare) f.
Proof.
  iIntros "H". unfold run. step. iApply cwp_new_obj. iSplit.
  - iIntros (h f1) "%Hf1 H1". step. iApply (finish (Alloc l spare)); [done..|]. simpl. rewrite hold_one hold_bufs. iFrame "H1 H".
  - iIntros (f1) "%Hf1". step. iApply (finish (Alloc l spare)); [lia|intros _; lia|done].
Qed.
Lemma spec_free k l spare f : hold [Blk k l spare] ⊢ goal_of (Free k l spare) f.
Proof. iIntros "H". rewrite hold_one. iDestruct "H" as "[H1 H2]". unfold run. step. iApply (cwp_free_obj with "H1"). iIntros (f1) "%Hf1". step. iApply (finish (Free k l spare)); [done..|]. simpl. by rewrite hold_bufs. Qed.

(** Arrays *)
Lemma spec_create l n from f : allowed (Create l n from) -> hold from ⊢ goal_of (Create l n from) f.
Proof.
  intros [Hn Hl]. iIntros "H". unfold run, constbuffer_array_create. destruct l as [l|]; simpl.
  - destruct Hl as [Hl Hr]. sub. sub. iApply cwp_new_array. iSplit.
    + iIntros (a f1) "%Hf1 H1". set (xs := take (Z.to_nat n) l). assert (E : Z.to_nat n = length xs). { unfold xs, len, is_u32 in *. rewrite take_length. lia. }
      sub. rewrite E. iEval (rewrite -(Nat.add_0_r (length xs))) in "H1". iApply (cwp_copy (hold from) (item (map fst l)) a n xs with "H H1"); [done| | |].
      * intros j x f' Q Hj. iIntros "HP HQ". unfold item. simpl. unfold xs in Hj. rewrite lookup_take_Some in Hj. destruct Hj as [Hj _]. rewrite list_lookup_fmap Hj. simpl. done_with. by iApply "HQ".
      * intros x f' Q Hx. apply f_inc. rewrite Forall_forall in Hr. apply Hr. apply elem_of_list_lookup in Hx as [j Hj]. unfold xs in Hj. rewrite lookup_take_Some in Hj. destruct Hj as [Hj _]. by eapply elem_of_list_lookup_2.
      * iIntros (f2) "%Hf2 H H1 H2". simpl. assert (El : n = len xs). { unfold len. unfold is_u32 in Hn. lia. } iEval (rewrite El) in "H1". iMod (share_built with "H1 H2") as "H1"; [unfold is_u32 in Hn; lia|]. done_with.
        iApply (finish (Create (Some l) n from)); [lia|apply makes_some; by left|]. simpl. rewrite hold_cons. iFrame.
    + iIntros (f1) "%Hf1". done_with. iApply (finish (Create (Some l) n from)); [lia|by apply makes_fail|done].
  - sub. destruct (decide (n <> 0)%Z) as [Hz|Hz].
    + done_with. iApply (finish (Create None n from)); [done| |done]. apply makes_bad. by intros [?|?].
    + assert (n = 0%Z) as -> by lia. iApply cwp_new_array. iSplit.
      * iIntros (a f1) "%Hf1 H1". iApply upd_cwp. iMod (share_built a [] with "H1 []") as "H1"; [done|iApply bufs_nil|]. iApply upd_intro. iApply (finish (Create None 0 from)); [lia|apply makes_some; by right|]. simpl. rewrite hold_cons. iFrame.
      * iIntros (f1) "%Hf1". iApply (finish (Create None 0 from)); [lia|by apply makes_fail|done].
Qed.
Lemma cwp_empty (Q : ptr -> nat -> cP) f : (∀ r f', ⌈f <= f' /\ made r f f'⌉ -∗ hold (new_arr r []) -∗ upd CInv (Q r f')) ⊢ cwp CInv constbuffer_array_create_empty f Q.
Proof.
  iIntros "H". unfold constbuffer_array_create_empty, new_array, new_node. step. iApply cwp_new_obj. iSplit.
  - iIntros (a f1) "%Hf1 H1". step. iApply (cwp_set_obj with "H1"). iIntros (f2) "%Hf2 H1". step. iApply cwp_ret. iMod (share_built a [] with "H1 []") as "H1"; [done|iApply bufs_nil|]. iApply ("H" with "[] [H1]"); [iPureIntro; split; [lia|done]|]. simpl. rewrite hold_one. iFrame "H1".
  - iIntros (f1) "%Hf1". step. iApply cwp_ret. iApply ("H" with "[] []"); [|iApply hold_nil]. iPureIntro. split; [lia|intros _; lia].
Qed.
Lemma spec_empty f : ⊢ goal_of Empty f.
Proof. unfold run. sub. iApply cwp_empty. iIntros (r f') "%Hf H". iApply upd_intro. by iApply (finish Empty); [apply Hf|apply Hf|]. Qed.
Lemma spec_move k n f : allowed (Move k n) -> hold (uses (Move k n)) ⊢ goal_of (Move k n) f.
Proof.
  intros [Hn Hk]. iIntros "H". unfold run, constbuffer_array_create_with_move_buffers. destruct k as [[[k l] sp]|]; simpl; [subst n|].
  - rewrite hold_one. unfold new_node. step. iApply cwp_new_obj. iSplit.
    + iIntros (a f1) "%Hf1 H1". step. iApply (cwp_set_obj with "H1"). iIntros (f2) "%Hf2 H1". step. iMod (share_moved with "H1 H") as "H"; [apply Hn|]. iApply (finish (Move (Some (k, l, sp)) (len l))); [lia|by apply makes_some|]. simpl. rewrite hold_one. iFrame "H".
    + iIntros (f1) "%Hf1". step. iApply (finish (Move (Some (k, l, sp)) (len l))); [lia|by apply makes_fail|]. simpl. rewrite hold_one. iFrame "H".
  - step. iApply (finish (Move None n)); [done|by apply makes_bad; intros []|done].
Qed.
Lemma spec_view a i n f : allowed (View a i n) -> hold (hold_arr a) ⊢ goal_of (View a i n) f.
Proof.
  intros [Hi Hn]. iIntros "H". unfold run, constbuffer_array_create_from_buffer_index_and_count. destruct a as [[o l]|]; simpl.
  2: { step. iApply (finish (View None i n)); [done|by apply makes_bad; intros []|done]. }
  rewrite hold_one. iDestruct "H" as (v) "[%Hv H]". destruct Hv as [Hw <-]. pose proof (aview_small v Hw) as Hsm. rewrite aview_len in Hsm. step. iApply (cwp_look_node with "H"). iIntros (f1) "%Hf1 H". step. cbn [anode nBuffers].
  rewrite range_check; [|done..|by apply len_u32]. case_bool_decide as Hb.
  { step. iApply (finish (View (Some (o, aview v)) i n)); [done|apply makes_bad; intros [_ Hc]; simpl in Hc; by rewrite aview_len in Hc|]. simpl. rewrite hold_one. iExists v. by iFrame. }
  unfold new_node. step. iApply cwp_new_obj. iSplit.
  - iIntros (a f2) "%Hf2 H1". unfold inc. step. iApply (cwp_inc with "H"); [constructor|]. iIntros (z f3) "%Hf3 H H2". step. iApply (cwp_set_obj with "H1"). iIntros (f4) "%Hf4 H1". step. cbn [anode buffers].
    replace n with (Z.of_nat (Z.to_nat n)) at 1 by (unfold is_u32 in Hn; lia). iMod (share_view with "H1 H2") as "H1"; [done|unfold is_u32, len in *; lia|]. iApply (finish (View (Some (o, aview v)) i n)); [lia|apply makes_some; simpl; by rewrite aview_len|]. simpl.
    rewrite hold_cons hold_one. iFrame "H1". iExists v. by iFrame.
  - iIntros (f2) "%Hf2". step. iApply (finish (View (Some (o, aview v)) i n)); [lia|apply makes_fail; lia|]. simpl. rewrite hold_one. iExists v. by iFrame.
Qed.
