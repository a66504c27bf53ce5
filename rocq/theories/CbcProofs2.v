(** Proofs for CbcProps: holding references, and arrays under construction. *)
From Verif Require Import CslRules Rc CslPool.
From Verif Require Import Common Block CMem Prog CbcModel CbcSpec CbcProofs.

Definition aview (v : aval) : list buf := map (fun x => (x.1, bcontent x.2)) (seen v).
Definition own_buf (x : buf) : cP := (∃ bv, ⌈bwf bv /\ bcontent bv = x.2⌉ ∗ tok (x.1, inl bv))%I.
Definition bufs (l : list buf) : cP := ([∗ list] x ∈ l, own_buf x)%I.
Definition own (x : held) : cP :=
  match x with
  | Buf b c => own_buf (b, c)
  | Arr a l => ∃ v, ⌈awf v /\ aview v = l⌉ ∗ tok (a, inr v)
  | Blk k l spare => lift (k ↦o OCells (cells_of l ++ replicate spare None)) ∗ bufs l
  end%I.
Notation hold := (all own).
Lemma hold_cons x l : hold (x :: l) ⊣⊢ own x ∗ hold l.
Proof. done. Qed.
Lemma hold_nil : ⊢ hold [].
Proof. unfold all. simpl. done. Qed.
Global Hint Extern 0 (environments.envs_entails _ (all own _)) => iApply hold_nil : core.
Lemma hold_one x : hold [x] ⊣⊢ own x.
Proof. unfold all. simpl. apply right_id. apply _. Qed.
Lemma hold_app l l' : hold (l ++ l') ⊣⊢ hold l ∗ hold l'.
Proof. apply big_sepL_app. Qed.
Lemma hold_bufs l : hold (map to_buf l) ⊣⊢ bufs l.
Proof. unfold all, bufs. induction l as [|[b c] l IH]; simpl; [done|]. by rewrite IH. Qed.
Lemma bufs_cons x l : bufs (x :: l) ⊣⊢ own_buf x ∗ bufs l.
Proof. done. Qed.
Lemma bufs_app l l' : bufs (l ++ l') ⊣⊢ bufs l ∗ bufs l'.
Proof. apply big_sepL_app. Qed.
Lemma bufs_one x : bufs [x] ⊣⊢ own_buf x.
Proof. unfold bufs. simpl. apply right_id. apply _. Qed.
Lemma bufs_nil : ⊢ bufs [].
Proof. unfold bufs. simpl. done. Qed.
Lemma hold_pick l x : x ∈ l -> hold l ⊢ own x ∗ (own x -∗ hold l).
Proof. intros Hx. apply elem_of_list_lookup in Hx as [i Hi]. exact (big_sepL_lookup_acc _ _ _ _ Hi). Qed.

Lemma bcontent_small bv : bwf bv -> (len (bcontent bv) <= UINT32_MAX)%Z.
Proof. unfold bwf, bcontent, len. pose proof (part_len bv.1 bv.2). lia. Qed.
Lemma aview_small v : awf v -> (len (aview v) <= UINT32_MAX)%Z.
Proof. intros [H _]. unfold aview, len in *. rewrite map_length. unfold seen. pose proof (part_len v.1.2 v.2). lia. Qed.
Lemma aview_len v : len (aview v) = len (seen v).
Proof. unfold aview, len. by rewrite map_length. Qed.
Lemma aview_lookup v i x : aview v !! i = Some x -> exists y, seen v !! i = Some y /\ x = (y.1, bcontent y.2).
Proof. unfold aview. rewrite list_lookup_fmap_Some. intros (y&->&Hy). by exists y. Qed.
Lemma aview_in v x : awf v -> x ∈ aview v -> exists y, y ∈ seen v /\ x = (y.1, bcontent y.2) /\ bwf y.2.
Proof.
  intros [_ Hw] Hx. apply elem_of_list_lookup in Hx as [i Hi]. apply aview_lookup in Hi as (y&Hy&->). exists y. apply elem_of_list_lookup_2 in Hy. split; [done|]. split; [done|]. rewrite Forall_forall in Hw. apply Hw. by eapply part_in.
Qed.

(** The rules, for what is held. *)
Section from.
Context (from : list held).
Lemma f_inc (Q : unit -> nat -> cP) x f : reaches from x -> hold from -∗ (∀ f', ⌈f <= f'⌉ -∗ hold from -∗ own_buf x -∗ Q tt f') -∗ cwp CInv (inc x.1) f Q.
Proof.
  intros Hx. iIntros "H HQ". unfold inc. step. destruct x as [b c]. destruct Hx as [Hx|(a&l&Ha&Hx)].
  - iDestruct (hold_pick _ _ Hx with "H") as "[H Hr]". iDestruct "H" as (bv) "[%Hb H]". iApply (cwp_inc with "H"); [constructor|]. iIntros (z f') "%Hf H1 H2". step. done_with.
    iApply ("HQ" with "[//] [H1 Hr] [H2]"); [iApply "Hr"|]; iExists bv; by iFrame.
  - iDestruct (hold_pick _ _ Ha with "H") as "[H Hr]". iDestruct "H" as (v) "[%Hv H]". destruct Hv as [Hw <-]. destruct (aview_in _ _ Hw Hx) as (y&Hy&E&Hyw). injection E as -> ->.
    iApply (cwp_inc _ _ y.1 (inl y.2) with "H"); [by apply (reach a v y)|]. iIntros (z f') "%Hf H1 H2". step. done_with.
    iApply ("HQ" with "[//] [H1 Hr] [H2]"); [iApply "Hr"; iExists v; by iFrame|]. iExists y.2. by iFrame.
Qed.
Lemma f_content (Q : bytes -> nat -> cP) x f : reaches from x -> hold from -∗ (∀ f', ⌈f <= f' /\ (len x.2 <= UINT32_MAX)%Z⌉ -∗ hold from -∗ Q x.2 f') -∗ cwp CInv (act (content_of x.1)) f Q.
Proof.
  intros Hx. iIntros "H HQ". unfold act. destruct x as [b c]. destruct Hx as [Hx|(a&l&Ha&Hx)].
  - iDestruct (hold_pick _ _ Hx with "H") as "[H Hr]". iDestruct "H" as (bv) "[%Hb H]". destruct Hb as [Hb Hc]. simpl in Hc. subst c. iApply (cwp_content with "H"); [constructor|]. iIntros (f') "%Hf H1". done_with.
    iApply ("HQ" with "[] [H1 Hr]"); [iPureIntro; split; [done|by apply bcontent_small]|]. iApply "Hr". iExists bv; by iFrame.
  - iDestruct (hold_pick _ _ Ha with "H") as "[H Hr]". iDestruct "H" as (v) "[%Hv H]". destruct Hv as [Hw <-]. destruct (aview_in _ _ Hw Hx) as (y&Hy&E&Hyw). injection E as -> ->.
    iApply (cwp_content _ _ y.1 y.2 with "H"); [by apply (reach a v y)|]. iIntros (f') "%Hf H1". done_with.
    iApply ("HQ" with "[] [H1 Hr]"); [iPureIntro; split; [done|by apply bcontent_small]|]. iApply "Hr"; iExists v; by iFrame.
Qed.
Lemma f_node (Q : node -> nat -> cP) a l f : Arr a l ∈ from -> hold from -∗ (∀ n f', ⌈f <= f' /\ nBuffers n = len l /\ (len l <= UINT32_MAX)%Z⌉ -∗ hold from -∗ Q n f') -∗ cwp CInv (act (get_node a)) f Q.
Proof.
  intros Ha. iIntros "H HQ". unfold act. iDestruct (hold_pick _ _ Ha with "H") as "[H Hr]". iDestruct "H" as (v) "[%Hv H]". destruct Hv as [Hw <-].
  iApply (cwp_look_node with "H"). iIntros (f') "%Hf H1". done_with. iApply ("HQ" with "[] [H1 Hr]"); [|iApply "Hr"; iExists v; by iFrame]. iPureIntro. split; [done|]. split; [by rewrite aview_len|by apply aview_small].
Qed.
Lemma f_read (Q : positive -> nat -> cP) a l i x f : Arr a l ∈ from -> l !! i = Some x -> hold from -∗ (∀ f', ⌈f <= f'⌉ -∗ hold from -∗ Q x.1 f') -∗ cwp CInv (read_buffer a i) f Q.
Proof.
  intros Ha Hx. iIntros "H HQ". unfold read_buffer. step. iDestruct (hold_pick _ _ Ha with "H") as "[H Hr]". iDestruct "H" as (v) "[%Hv H]". destruct Hv as [Hw <-]. apply aview_lookup in Hx as (y&Hy&->).
  iApply (cwp_look_node with "H"). iIntros (f1) "%Hf1 H1". step. cbn [anode buffers]. iApply (cwp_read_place with "H1"); [exact Hy|]. iIntros (f2) "%Hf2 H1". done_with. iApply ("HQ" with "[] [H1 Hr]"); [iPureIntro; lia|]. iApply "Hr". iExists v. by iFrame.
Qed.
Lemma f_inc_arr (Q : unit -> nat -> cP) a l f : Arr a l ∈ from -> hold from -∗ (∀ f', ⌈f <= f'⌉ -∗ hold from -∗ own (Arr a l) -∗ Q tt f') -∗ cwp CInv (inc a) f Q.
Proof.
  intros Ha. iIntros "H HQ". unfold inc. step. iDestruct (hold_pick _ _ Ha with "H") as "[H Hr]". iDestruct "H" as (v) "[%Hv H]". iApply (cwp_inc with "H"); [constructor|]. iIntros (z f') "%Hf H1 H2". step. done_with.
  iApply ("HQ" with "[//] [H1 Hr] [H2]"); [iApply "Hr"|]; iExists v; by iFrame.
Qed.
Lemma reaches_arr a l x : Arr a l ∈ from -> x ∈ l -> reaches from x.
Proof. intros. right. by exists a, l. Qed.
End from.

(** An array whose first slots have been filled. *)
Definition building (a : positive) (n : Z) (ys : list buf) (k : nat) : cP := lift (a ↦o OArr (Node n NoFree (InNode a 0) (cells_of ys ++ replicate k None)) 1).
Lemma cwp_new_array (Q : ptr -> nat -> cP) n f : (∀ a f', ⌈f <= f'⌉ -∗ building a n [] (Z.to_nat n) -∗ Q (Some a) f') ∧ (∀ f', ⌈f < f'⌉ -∗ Q None f') ⊢ cwp CInv (new_array n) f Q.
Proof.
  iIntros "H". unfold new_array, new_node. step. iApply cwp_new_obj. iSplit.
  - iIntros (a f1) "%Hf1 H1". step. iApply (cwp_set_obj with "H1"). iIntros (f2) "%Hf2 H1". step. done_with. iDestruct "H" as "[H _]". iApply ("H" with "[] H1"). iPureIntro. lia.
  - iIntros (f1) "%Hf1". step. done_with. iDestruct "H" as "[_ H]". by iApply "H".
Qed.
Lemma cells_app (l l' : list buf) : cells_of (l ++ l') = cells_of l ++ cells_of l'.
Proof. apply map_app. Qed.
Lemma cells_len (l : list buf) : length (cells_of l) = length l.
Proof. apply map_length. Qed.
Lemma cwp_append (Q : unit -> nat -> cP) a n ys k x d f : d = length ys -> building a n ys (S k) -∗ (∀ f', ⌈f <= f'⌉ -∗ building a n (ys ++ [x]) k -∗ Q tt f') -∗ cwp CInv (act (write_buffer a d x.1)) f Q.
Proof.
  intros ->. iIntros "H HQ". unfold act. iApply (cwp_det _ _ _ _ (fun _ => True) _ (a ↦o OArr (Node n NoFree (InNode a 0) (cells_of (ys ++ [x]) ++ replicate k None)) 1)%I with "H").
  - intros f'. iIntros "H". unfold write_buffer. iApply wpi_bind. iApply (wpi_get_obj with "H"). iIntros "H". cbn [buffers buffers_memory nBuffers custom_free].
    rewrite decide_True; [|split; [done|rewrite app_length cells_len replicate_length; lia]]. iApply (wpi_set_obj with "H"). iIntros "H". iSplit; [done|].
    rewrite -(cells_len ys) insert_app_r_alt // Nat.sub_diag. simpl. rewrite cells_app -app_assoc. simpl. iFrame "H".
  - iIntros ([] f') "%Hf H". done_with. iApply ("HQ" with "[] H"). iPureIntro. tauto.
Qed.
Lemma cwp_copy (P : cP) (source : nat -> code positive) a n xs : forall (Q : unit -> nat -> cP) ys k i d f, d = length ys ->
  (forall j x f (Q : positive -> nat -> cP), xs !! j = Some x -> P -∗ (∀ f', ⌈f <= f'⌉ -∗ P -∗ Q x.1 f') -∗ cwp CInv (source (i + j)) f Q) ->
  (forall x f (Q : unit -> nat -> cP), x ∈ xs -> P -∗ (∀ f', ⌈f <= f'⌉ -∗ P -∗ own_buf x -∗ Q tt f') -∗ cwp CInv (inc x.1) f Q) ->
  P -∗ building a n ys (length xs + k) -∗ (∀ f', ⌈f <= f'⌉ -∗ P -∗ building a n (ys ++ xs) k -∗ bufs xs -∗ Q tt f') -∗ cwp CInv (copy_buffers source a i d (length xs)) f Q.
Proof.
  induction xs as [|x xs IH]; intros Q ys k i d f Hd Hs Hi; iIntros "HP H HQ"; cbn [copy_buffers length].
  - done_with. rewrite app_nil_r. iApply ("HQ" with "[//] HP H"). iApply bufs_nil.
  - sub. pose proof (Hs 0 x) as Hs0. rewrite Nat.add_0_r in Hs0. iApply (Hs0 with "HP"); [done|]. iIntros (f1) "%Hf1 HP". sub. iApply (Hi with "HP"); [by left|]. iIntros (f2) "%Hf2 HP Hx". sub.
    cbn [Nat.add length]. iApply (cwp_append with "H"); [done|]. iIntros (f3) "%Hf3 H". iApply (IH _ (ys ++ [x]) k (S i) (S d) with "HP H").
    + rewrite app_length. simpl. lia.
    + intros j x' f' Q' Hj. rewrite Nat.add_succ_l -Nat.add_succ_r. by apply Hs.
    + intros x' f' Q' Hx. apply Hi. by right.
    + iIntros (f4) "%Hf4 HP H Hxs". rewrite -app_assoc. iApply ("HQ" with "[] HP H [Hx Hxs]"); [iPureIntro; lia|]. rewrite bufs_cons. iFrame "Hx Hxs".
Qed.
(** Copying from an array that is held. *)
Lemma cwp_copy_arr (from : list held) (Q : unit -> nat -> cP) o l a n ys k i m d f : Arr o l ∈ from -> d = length ys -> i + m <= length l ->
  hold from -∗ building a n ys (m + k) -∗ (∀ f', ⌈f <= f'⌉ -∗ hold from -∗ building a n (ys ++ take m (drop i l)) k -∗ bufs (take m (drop i l)) -∗ Q tt f') -∗
  cwp CInv (copy_buffers (read_buffer o) a i d m) f Q.
Proof.
  intros Ho Hd Hm. assert (Hl : m = length (take m (drop i l))) by (rewrite take_length drop_length; lia). rewrite {1 4}Hl. apply cwp_copy; [done| |].
  - intros j x f' Q' Hj. rewrite lookup_take_Some lookup_drop in Hj. apply (f_read _ _ o l); tauto.
  - intros x f' Q' Hx. apply f_inc. apply (reaches_arr _ o l); [done|]. apply elem_of_list_lookup in Hx as [j Hj]. rewrite lookup_take_Some lookup_drop in Hj. destruct Hj as [Hj _]. by eapply elem_of_list_lookup_2.
Qed.

(** Done: the array becomes shared. *)
Lemma open_bufs l : bufs l ⊢ ∃ vs, ⌈Forall (fun x => bwf x.2) vs /\ map (fun x => (x.1, bcontent x.2)) vs = l⌉ ∗ toks (list_to_set_disj (map btok vs)).
Proof.
  induction l as [|[b c] l IH].
  - iIntros "_". iExists []. simpl. rewrite toks_empty. iPureIntro. done.
  - rewrite bufs_cons IH. iIntros "[(%bv&%Hb&H1) (%vs&%Hv&H2)]". iExists ((b, bv) :: vs). simpl. rewrite toks_union toks_tok. iFrame "H1 H2". iPureIntro. destruct Hb as [Hb1 Hb2], Hv as [Hv1 Hv2]. simpl in Hb2. split; [by constructor|]. by rewrite Hb2 Hv2.
Qed.
Lemma share_base a m l (vs : list (positive * bval)) : (len l <= UINT32_MAX)%Z -> Forall (fun x => bwf x.2) vs -> map (fun x => (x.1, bcontent x.2)) vs = l ->
  lift (a ↦o OArr (anode a (m, vs, [])) 1) -∗ lift (amem (m, vs, [])) -∗ toks (list_to_set_disj (map btok vs)) -∗ upd CInv (own (Arr a l)).
Proof.
  intros Hl Hw Hm. iIntros "H1 H2 H3". iMod (rc_share repr holds repr_excl a (inr (m, vs, [])) with "[H1 H2 H3]") as "H".
  - unfold repr. simpl. rewrite lift_sep. iFrame "H1 H2 H3".
  - iApply upd_intro. iExists (m, vs, []). iFrame "H". iPureIntro. split; [|done]. split; [|done]. unfold len in *. simpl. subst l. by rewrite map_length in Hl.
Qed.
Lemma cells_vs (vs : list (positive * bval)) l : map (fun x => (x.1, bcontent x.2)) vs = l -> cells_of l = cells_of vs /\ len l = len vs.
Proof. intros <-. unfold cells_of, len. by rewrite map_map map_length. Qed.
Lemma share_built a l : (len l <= UINT32_MAX)%Z -> building a (len l) l 0 -∗ bufs l -∗ upd CInv (own (Arr a l)).
Proof.
  intros Hl. iIntros "H1 H2". iEval (rewrite open_bufs) in "H2". iDestruct "H2" as (vs) "[%Hv H2]". destruct Hv as [Hw Hm]. destruct (cells_vs _ _ Hm) as [E1 E2].
  unfold building. simpl. rewrite app_nil_r E1 E2. iApply (share_base a None l vs with "H1 [] H2"); [done..|]. cbn [amem fst snd]. by rewrite lift_emp.
Qed.
Lemma share_moved a k l sp : (len l <= UINT32_MAX)%Z -> lift (a ↦o OArr (Node (len l) FreeMoved (InBlock k 0) []) 1) -∗ own (Blk k l sp) -∗ upd CInv (own (Arr a l)).
Proof.
  intros Hl. iIntros "H1 [H3 H2]". iEval (rewrite open_bufs) in "H2". iDestruct "H2" as (vs) "[%Hv H2]". destruct Hv as [Hw Hm]. destruct (cells_vs _ _ Hm) as [E1 E2].
  rewrite E1 E2. iApply (share_base a (Some (k, sp)) l vs with "H1 H3 H2"); done.
Qed.
Lemma share_view a o v off n : awf v -> off + n <= length (seen v) -> lift (a ↦o OArr (Node (Z.of_nat n) (FreeView o) (shift (aplace o v.1.1 v.2) off) []) 1) -∗ tok (o, inr v) -∗ upd CInv (own (Arr a (take n (drop off (aview v))))).
Proof.
  intros Hw Hn. iIntros "H1 H2". destruct v as [[m l] vs]. unfold seen in Hn. simpl in Hn. iMod (rc_share repr holds repr_excl a (inr (m, l, (o, off, n) :: vs)) with "[H1 H2]") as "H".
  - unfold repr. simpl. unfold amem. cbn [fst snd]. rewrite lift_sep lift_emp toks_tok. iFrame "H2". iSplitL; [|done]. unfold anode. cbn [fst snd afree aplace]. unfold seen, len. cbn [fst snd part]. rewrite take_length drop_length Nat.min_l; [|lia]. iFrame "H1".
  - iApply upd_intro. iExists (m, l, (o, off, n) :: vs). iFrame "H". iPureIntro. split; [exact Hw|]. unfold aview, seen. cbn [fst snd part]. by rewrite -fmap_drop -fmap_take.
Qed.
Lemma cwp_dec_ref (Q : unit -> nat -> cP) a l f : own (Arr a l) -∗ (∀ f', ⌈f <= f'⌉ -∗ Q tt f') -∗ cwp CInv (constbuffer_array_dec_ref (Some a)) f Q.
Proof. iIntros "(%v&%Hv&H) HQ". destruct v as [[m l'] vs]. iApply (cwp_dec_ref_loop with "H [] HQ"). by rewrite lift_emp. Qed.
Lemma cwp_dec_buf (Q : unit -> nat -> cP) x f : own_buf x -∗ (∀ f', ⌈f <= f'⌉ -∗ Q tt f') -∗ cwp CInv (CONSTBUFFER_DecRef x.1) f Q.
Proof. iIntros "(%v&%Hv&H) HQ". iApply (cwp_DecRef with "H HQ"). Qed.
