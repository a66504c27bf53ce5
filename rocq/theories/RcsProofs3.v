(** Proofs for RcsProps: rc_string_utils_split_by_char and external_command_helper_execute. *)
From Verif Require Import CslRules Rc CslPool.
From Verif Require Import Common Block BlockFacts CMem CMemFacts Prog RcsModel RcsSpec RcsProofs RcsProofs2.

(** The parts of a string, by its characters: [cur] is what was read since the last delimiter. *)
Fixpoint pieces (d : Z) (cur rest : bytes) : list bytes :=
  match rest with
  | [] => [cur]
  | c :: r => if decide (c = d) then cur :: pieces d [] r else pieces d (cur ++ [c]) r
  end.
Lemma pieces_parts d cur rest : d ∉ cur -> parts_of d (cur ++ rest) (pieces d cur rest).
Proof.
  revert cur. induction rest as [|c r IH]; intros cur Hc; simpl.
  - exists cur, []. split; [done|]. split; [done|]. by constructor.
  - destruct (decide (c = d)) as [->|Hne].
    + destruct (IH [] (not_elem_of_nil _)) as (x&xs&E&Hr&Hf). rewrite app_nil_l in Hr. exists cur, (x :: xs). rewrite E. split; [done|]. split; [|constructor; [done|by rewrite -E]]. simpl. by rewrite Hr.
    + destruct (IH (cur ++ [c])) as (x&xs&E&Hr&Hf); [rewrite elem_of_app elem_of_list_singleton; intros [?|?]; [done|congruence]|]. exists x, xs. split; [done|]. split; [by rewrite -Hr -app_assoc|done].
Qed.
Lemma pieces_length d cur rest : length (pieces d cur rest) = occurrences d rest + 1.
Proof.
  revert cur. induction rest as [|c r IH]; intros cur; [done|]. simpl. unfold occurrences in *. rewrite filter_cons. destruct (decide (c = d)); simpl; by rewrite IH.
Qed.
Lemma num_splits_spec s d : (Z.of_nat (occurrences d s) < UINT32_MAX)%Z -> num_splits s d = (Z.of_nat (occurrences d s) + 1)%Z.
Proof.
  intros H. unfold num_splits. assert (forall n, (0 <= n)%Z -> (n + Z.of_nat (occurrences d s) < UINT32_MAX)%Z -> foldl (fun n c => if decide (c = d) then u32 (n + 1) else n) n s = (n + Z.of_nat (occurrences d s))%Z) as Hf.
  { clear H. induction s as [|c s IH]; intros n Hn Hl; [unfold occurrences; simpl; lia|]. simpl. unfold occurrences in *. rewrite filter_cons in Hl |- *. destruct (decide (c = d)) as [->|].
    - simpl in *. unfold u32. rewrite Z.mod_small; [|unfold UINT32_MAX, UINT32_MOD in *; lia]. rewrite IH; lia.
    - apply IH; lia. }
  rewrite Hf; [|lia|lia]. unfold u32. rewrite Z.mod_small; [done|]. unfold UINT32_MAX, UINT32_MOD in *. lia.
Qed.

Notation texts := (map (option_map (@snd positive bytes))).
Lemma cwp_split_loop (Q : bool -> nat -> cP) a s d rest : forall i start idx l f, no_zero s -> rest = drop i s -> i <= length s -> start <= i ->
  idx + length (pieces d (take (i - start) (drop start s)) rest) <= length l ->
  array a l -∗
  (∀ b l' f', ⌈f <= f' /\ (b = false -> f < f') /\
     (b = true -> texts l' = take idx (texts l) ++ map Some (pieces d (take (i - start) (drop start s)) rest) ++ drop (idx + length (pieces d (take (i - start) (drop start s)) rest)) (texts l))⌉ -∗ array a l' -∗ Q b f') -∗
  cwp CInv (split_loop a (s ++ [0%Z]) d i (length rest + 1) start idx) f Q.
Proof.
  (* one part: what is left of the proof is K *)
  assert (forall i start idx l f n (Q : bool -> nat -> cP), no_zero s -> i <= length s -> start <= i -> idx < length l -> (nth i (s ++ [0%Z]) 0%Z = d \/ nth i (s ++ [0%Z]) 0%Z = 0%Z) ->
    array a l -∗ (∀ f', ⌈f < f'⌉ -∗ array a l -∗ Q false f') ∧
      (∀ h f', ⌈f <= f'⌉ -∗ array a (<[idx := Some (h, take (i - start) (drop start s))]> l) -∗ cwp CInv (split_loop a (s ++ [0%Z]) d (S i) n (i + 1) (S idx)) f' Q) -∗
    cwp CInv (split_loop a (s ++ [0%Z]) d i (S n) start idx) f Q) as Hpart.
  { clear Q rest. intros i start idx l f n Q Hz Hi Hs Hidx Hd. iIntros "H HQ". cbn [split_loop]. rewrite decide_True //. set (cur := take (i - start) (drop start s)).
    assert (Hcur : take (i - start) (drop start (s ++ [0%Z])) = cur). { unfold cur. rewrite drop_app_le; [|lia]. rewrite take_app_le; [done|]. rewrite drop_length. lia. }
    assert (Hlen : length cur = i - start) by (unfold cur; rewrite take_length drop_length; lia). assert (Hzc : no_zero cur).
    { unfold no_zero, cur in *. intros Hin. apply elem_of_take in Hin as (j&Hj&_). rewrite lookup_drop in Hj. apply Hz. by eapply elem_of_list_lookup_2. }
    step. iApply cwp_malloc. iSplit.
    - iIntros (t f1) "%Hf1 H1". step. rewrite Hcur. iApply (cwp_det _ _ _ _ (fun _ => True) _ (t ↦b (bytes_block cur ++ [None]))%I with "H1").
      { intros f'. iIntros "H". iApply (wpi_store with "H"); [unfold fresh_block, bytes_block; rewrite replicate_length fmap_length; lia|]. iIntros "H". simpl. unfold fresh_block. rewrite drop_replicate. unfold bytes_block. rewrite fmap_length Hlen.
        replace (i - start + 1 - (i - start)) with 1 by lia. by iFrame "H". }
      iIntros ([] f2) "[%Hf2 _] H1". step. iApply (cwp_det _ _ _ _ (fun _ => True) _ (t ↦b bytes_block (cur ++ [0%Z]))%I with "H1").
      { intros f'. iIntros "H". iApply (wpi_store with "H"); [rewrite app_length; unfold bytes_block; rewrite !fmap_length; simpl; lia|]. iIntros "H". rewrite take_app_alt; [|unfold bytes_block; rewrite fmap_length; lia].
        rewrite drop_ge; [|rewrite app_length; unfold bytes_block; rewrite !fmap_length; simpl; lia]. rewrite app_nil_r. unfold bytes_block. rewrite fmap_app. by iFrame "H". }
      iIntros ([] f3) "[%Hf3 _] H1". step. iApply cwp_new_obj. iSplit.
      + iIntros (h f4) "%Hf4 H2". iApply upd_cwp. iMod (share_new h (inl (inl (inr (t, cur ++ [0%Z])))) with "H2 H1") as "H1"; [simpl; set_solver|done|]. iApply upd_intro. simpl. rewrite string_in_app //. step. iDestruct "HQ" as "[_ HQ]". iApply (cwp_put with "H H1"); [done|intros p; by rewrite pbind_ret|]. iIntros (f5) "%Hf5 H". iApply ("HQ" with "[] H"). iPureIntro. lia.
      + iIntros (f4) "%Hf4". step. iApply (cwp_free with "H1"). iIntros (f5) "%Hf5". step. iApply cwp_ret. iApply upd_intro. iDestruct "HQ" as "[HQ _]". iApply ("HQ" with "[] H"). iPureIntro. lia.
    - iIntros (f1) "%Hf1". step. iApply cwp_ret. iApply upd_intro. iDestruct "HQ" as "[HQ _]". iApply ("HQ" with "[] H"). iPureIntro. lia. }
  assert (Htx : forall (l : list sref) idx h (p : bytes) (ps : list bytes) (l' : list sref), idx < length l -> texts l' = take (S idx) (texts (<[idx := Some (h, p)]> l)) ++ map Some ps ++ drop (S idx + length ps) (texts (<[idx := Some (h, p)]> l)) ->
    texts l' = take idx (texts l) ++ map Some (p :: ps) ++ drop (idx + length (p :: ps)) (texts l)).
  { intros l idx h p ps l' Hl ->. change (texts (<[idx:=Some (h, p)]> l)) with (option_map snd <$> <[idx:=Some (h, p)]> l). rewrite list_fmap_insert. rewrite (take_S_r _ _ (Some p)); [|apply list_lookup_insert; by rewrite fmap_length].
    rewrite take_insert; [|lia]. rewrite drop_insert_gt; [|lia]. rewrite -app_assoc. simpl. by rewrite Nat.add_succ_r. }
  induction rest as [|c r IH]; intros i start idx l f Hz Hr Hi Hs Hl; iIntros "H HQ".
  - assert (i = length s) as Hi'. { apply (f_equal length) in Hr. rewrite drop_length in Hr. simpl in Hr. lia. } simpl (length [] + 1).
    iApply (Hpart with "H"); [done|done|done|simpl in Hl; lia| |]. { right. subst i. rewrite app_nth2; [|lia]. by rewrite Nat.sub_diag. }
    iSplit; [iIntros (f1) "%Hf1 H"; iApply ("HQ" $! false with "[] H"); iPureIntro; split; [lia|]; split; [done|done]|].
    iIntros (h f1) "%Hf1 H". simpl. iApply cwp_ret. iApply upd_intro. iApply ("HQ" $! true with "[] H"). iPureIntro. split; [done|]. split; [done|]. intros _. simpl in Hl. apply (Htx l idx h _ []); [lia|].
    simpl. rewrite Nat.add_0_r. by rewrite take_drop.
  - assert (s !! i = Some c) as Hc. { rewrite -(Nat.add_0_r i) -lookup_drop -Hr. done. } assert (i < length s) as Hi' by (by eapply lookup_lt_Some). assert (nth i (s ++ [0%Z]) 0%Z = c) as Hn. { rewrite app_nth1 //. by apply nth_lookup_Some with (d := 0%Z) in Hc. }
    assert (r = drop (S i) s) as Hr'. { rewrite (drop_S _ _ _ Hc) in Hr. by injection Hr. } change (length (c :: r) + 1) with (S (length r + 1)).
    assert (c <> 0%Z) as Hc0. { intros ->. apply Hz. by eapply elem_of_list_lookup_2. } simpl pieces in Hl |- *. destruct (decide (c = d)) as [->|Hne].
    + iApply (Hpart with "H"); [done|lia|done|simpl in Hl; lia|by left|].
      iSplit; [iIntros (f1) "%Hf1 H"; iApply ("HQ" $! false with "[] H"); iPureIntro; split; [lia|]; split; [done|done]|].
      iIntros (h f1) "%Hf1 H". replace (i + 1) with (S i) by lia. simpl in Hl. iApply (IH with "H"); [done|done|lia|lia|rewrite insert_length Nat.sub_diag take_0; simpl; lia|]. rewrite Nat.sub_diag take_0.
      iIntros (b l' f2) "%Hb H". iApply ("HQ" with "[] H"). iPureIntro. destruct Hb as (?&?&Hb). split; [lia|]. split; [intros; lia|]. intros Hbt. apply (Htx l idx h); [lia|by apply Hb].
    + cbn [split_loop]. rewrite decide_False; [|rewrite Hn; tauto].
      assert (take (i - start) (drop start s) ++ [c] = take (S i - start) (drop start s)) as Hcur. { replace (S i - start) with (S (i - start)) by lia. symmetry. apply take_S_r. rewrite lookup_drop. replace (start + (i - start)) with i by lia. done. }
      rewrite Hcur in Hl |- *. iApply (IH with "H"); [done|done|lia|lia|done|]. iApply "HQ".
Qed.
Lemma occ_in d s : occurrences d s = 0 -> d ∉ s.
Proof. unfold occurrences. intros H%length_zero_iff_nil Hin. assert (d ∈ filter (fun c => c = d) s) as Hf; [by apply elem_of_list_filter|]. rewrite H in Hf. by apply elem_of_nil in Hf. Qed.
Lemma spec_split h d f : allowed (Split h d) -> hold (hold_str h) ⊢ goal_of (Split h d) f.
Proof.
  intros Ha. iIntros "H". unfold run. destruct h as [[h s]|]; simpl; [|step; step; by iApply (finish (Split None d))].
  simpl in Ha. rewrite hold_one. iApply (own_ref_no_zero with "[] H"). iIntros "%Hz H". step. iApply (cwp_string with "H"). iIntros (f1) "%Hf1 H". step. rewrite num_splits_spec //.
  sub. sub. iApply cwp_array_create; [lia|]. iSplit.
  2:{ iIntros (f2) "%Hf2". iApply cwp_ret. iApply upd_intro. simpl. step. iApply (finish (Split (Some (h, s)) d)); [lia|simpl; lia|]. simpl. rewrite hold_one. iFrame "H". }
  iIntros (a f2) "%Hf2 H1". destruct (decide (Z.of_nat (occurrences d s) + 1 = 1)%Z) as [E|E].
  - assert (occurrences d s = 0) as E0 by lia. rewrite E0. simpl. step.
    iDestruct "H1" as "(%sp&H1&H2)". destruct sp as [p|]; [|iDestruct "H2" as %?; done]. iApply (cwp_arr_cells with "H1"). iIntros (f3) "%Hf3 H1". step. sub. iApply (cwp_inc_ref with "H"). iIntros (f4) "%Hf4 H H3". sub.
    iApply (cwp_move_to_cell OCells with "H2 H3"); [apply is_array_cells|simpl; lia|]. iIntros (f5) "%Hf5 H2". iApply cwp_ret. iApply upd_intro. sub. iApply (cwp_look_at _ _ [Some (h, s)] with "[H1 H2]"); [iExists (Some p); iFrame "H1 H2"|].
    iIntros (f6) "%Hf6 H1". iApply (finish (Split (Some (h, s)) d)); [lia| |simpl; rewrite hold_cons hold_one; iFrame "H H1"].
    exists [s]. split; [|done]. exists s, []. split; [done|]. split; [by rewrite app_nil_r|]. constructor; [by apply occ_in|done].
  - sub. assert (Z.to_nat (Z.of_nat (occurrences d s) + 1) = occurrences d s + 1) as -> by lia. pose proof (pieces_length d [] s) as Hpl.
    iApply (cwp_split_loop _ a s d s 0 0 0 with "H1"); [done|by rewrite drop_0|lia|done|rewrite replicate_length take_0; simpl; lia|]. simpl (0 - 0). rewrite take_0. iIntros (b l' f3) "%Hb H1". destruct Hb as (Hf3&Hb1&Hb2). destruct b.
    + iApply cwp_ret. iApply upd_intro. sub. iApply (cwp_look_at with "H1"). iIntros (f4) "%Hf4 H1". iApply (finish (Split (Some (h, s)) d)); [lia| |simpl; rewrite hold_cons hold_one; iFrame "H H1"].
      exists (pieces d [] s). split; [apply (pieces_parts d [] s); apply not_elem_of_nil|]. split; [|lia]. rewrite Hb2 //. rewrite take_0 app_nil_l. rewrite drop_ge; [by rewrite app_nil_r|]. rewrite map_length replicate_length. lia.
    + sub. iApply (cwp_array_destroy with "H1"). iIntros (f4) "%Hf4". iApply cwp_ret. iApply upd_intro. simpl. step. iApply (finish (Split (Some (h, s)) d)); [lia|simpl; specialize (Hb1 eq_refl); lia|simpl; rewrite hold_one; iFrame "H"].
Qed.
