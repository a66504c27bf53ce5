(** The rules of SepHeap for the operations of CMem and CStr. *)
From Verif Require Export SepHeap.
From Verif Require Import Common Block BlockFacts CMem CMemFacts CStr CStrFacts.

Section rules.
Context {O : Type}.
Implicit Types (P K : hPropI O) (r fr : piece O) (s : st O).

Lemma wpi_intro {A} P (m : M (st O) A) f (Q : A -> nat -> hPropI O) :
  (forall r fr orc, hholds P r -> pdisj r fr -> wp m (St (pmem (punion r fr)) (pobjs (punion r fr)) orc f) (fun a s' =>
     exists r', pdisj r' fr /\ mem s' = pmem (punion r' fr) /\ objs s' = pobjs (punion r' fr) /\ f <= fails s' /\ hholds (Q a (fails s')) r')) -> P ⊢ wpi m f Q.
Proof. intros H. apply hentails_intro. intros r Hr fr orc Hd. by apply H. Qed.

Lemma blk_split p b K r fr : hholds (p ↦b b ∗ K)%I r -> pdisj r fr ->
  exists r2, hholds K r2 /\ pdisj r2 fr /\ pmem (punion r2 fr) !! p = None /\
    pmem (punion r fr) = <[p := b]> (pmem (punion r2 fr)) /\ pobjs (punion r fr) = pobjs (punion r2 fr).
Proof.
  intros (r1&r2&->&[Hd1 Hd2]&H1&HK) Hd. simpl in H1. subst r1. apply pdisj_union_l in Hd as [[Hd3 _] Hd4]. simpl in *. exists r2. split; [done|]. split; [done|].
  apply map_disjoint_singleton_l in Hd1. apply map_disjoint_singleton_l in Hd3.
  split; [by apply lookup_union_None|]. split; [by rewrite insert_union_l insert_union_singleton_l|]. by rewrite left_id_L.
Qed.
Lemma blk_join p b K r2 fr : hholds (p ↦b b -∗ K)%I r2 -> pdisj r2 fr -> pmem (punion r2 fr) !! p = None ->
  exists r', hholds K r' /\ pdisj r' fr /\ pmem (punion r' fr) = <[p := b]> (pmem (punion r2 fr)) /\ pobjs (punion r' fr) = pobjs (punion r2 fr).
Proof.
  intros HK [Hd1 Hd2] Hp. simpl in Hp. apply lookup_union_None in Hp as [Hp1 Hp2].
  assert (Hdj : pdisj r2 (Piece {[p := b]} ∅)).
  { split; simpl; [|apply map_disjoint_empty_r]. by apply map_disjoint_singleton_r. }
  exists (punion r2 (Piece {[p := b]} ∅)). split; [by apply HK|]. split.
  { split; simpl; apply map_disjoint_union_l; split; try done; [by apply map_disjoint_singleton_l|apply map_disjoint_empty_l]. }
  simpl. split; [|by rewrite right_id_L]. rewrite (map_union_comm (pmem r2)); [|by apply map_disjoint_singleton_r].
  by rewrite insert_union_l insert_union_singleton_l.
Qed.
Lemma obj_split h o K r fr : hholds (h ↦o o ∗ K)%I r -> pdisj r fr ->
  exists r2, hholds K r2 /\ pdisj r2 fr /\ pobjs (punion r2 fr) !! h = None /\
    pobjs (punion r fr) = <[h := o]> (pobjs (punion r2 fr)) /\ pmem (punion r fr) = pmem (punion r2 fr).
Proof.
  intros (r1&r2&->&[Hd1 Hd2]&H1&HK) Hd. simpl in H1. subst r1. apply pdisj_union_l in Hd as [[_ Hd3] Hd4]. simpl in *. exists r2. split; [done|]. split; [done|].
  apply map_disjoint_singleton_l in Hd2. apply map_disjoint_singleton_l in Hd3.
  split; [by apply lookup_union_None|]. split; [by rewrite insert_union_l insert_union_singleton_l|]. by rewrite left_id_L.
Qed.
Lemma obj_join h o K r2 fr : hholds (h ↦o o -∗ K)%I r2 -> pdisj r2 fr -> pobjs (punion r2 fr) !! h = None ->
  exists r', hholds K r' /\ pdisj r' fr /\ pobjs (punion r' fr) = <[h := o]> (pobjs (punion r2 fr)) /\ pmem (punion r' fr) = pmem (punion r2 fr).
Proof.
  intros HK [Hd1 Hd2] Hp. simpl in Hp. apply lookup_union_None in Hp as [Hp1 Hp2].
  assert (Hdj : pdisj r2 (Piece ∅ {[h := o]})).
  { split; simpl; [apply map_disjoint_empty_r|]. by apply map_disjoint_singleton_r. }
  exists (punion r2 (Piece ∅ {[h := o]})). split; [by apply HK|]. split.
  { split; simpl; apply map_disjoint_union_l; split; try done; [apply map_disjoint_empty_l|by apply map_disjoint_singleton_l]. }
  simpl. split; [|by rewrite right_id_L]. rewrite (map_union_comm (pobjs r2)); [|by apply map_disjoint_singleton_r].
  by rewrite insert_union_l insert_union_singleton_l.
Qed.

Lemma wpi_malloc n f (Q : ptr -> nat -> hPropI O) : (∀ p, p ↦b fresh_block n -∗ Q (Some p) f) ∧ Q None (S f) ⊢ wpi (malloc n) f Q.
Proof.
  apply wpi_intro. intros r fr orc [H1 H2] Hd. apply wp_malloc; simpl.
  - intros p o Hp. destruct (blk_join _ _ _ _ _ (H1 p) Hd Hp) as (r'&?&?&?&?). exists r'. simpl. split_and!; auto.
  - intros o. exists r. simpl. split_and!; auto.
Qed.
Lemma wpi_new_obj o0 f (Q : ptr -> nat -> hPropI O) : (∀ h, h ↦o o0 -∗ Q (Some h) f) ∧ Q None (S f) ⊢ wpi (new_obj o0) f Q.
Proof.
  apply wpi_intro. intros r fr orc [H1 H2] Hd. apply wp_new_obj; simpl.
  - intros p o Hp. destruct (obj_join _ _ _ _ _ (H1 p) Hd Hp) as (r'&?&?&?&?). exists r'. simpl. split_and!; auto.
  - intros o. exists r. simpl. split_and!; auto.
Qed.
Lemma wpi_free p b f (Q : unit -> nat -> hPropI O) : p ↦b b -∗ Q tt f -∗ wpi (free (Some p)) f Q.
Proof.
  iIntros "H1 H2". iStopProof. apply wpi_intro. intros r fr orc H Hd. destruct (blk_split _ _ _ _ _ H Hd) as (r2&HK&Hd2&Hp&Hm&Ho).
  rewrite Hm Ho. eapply wp_free; simpl; [by rewrite lookup_insert|]. exists r2. simpl. rewrite delete_insert //.
Qed.
Lemma wpi_free_null f (Q : unit -> nat -> hPropI O) : Q tt f ⊢ wpi (free None) f Q.
Proof. apply (wpi_ret tt). Qed.
Lemma wpi_load p b off n f (Q : block -> nat -> hPropI O) : off + n <= length b ->
  p ↦b b -∗ (p ↦b b -∗ Q (take n (drop off b)) f) -∗ wpi (load (Some p) off n) f Q.
Proof.
  intros Hl. iIntros "H1 H2". iStopProof. apply wpi_intro. intros r fr orc H Hd. destruct (blk_split _ _ _ _ _ H Hd) as (r2&HK&Hd2&Hp&Hm&Ho).
  rewrite Hm Ho. eapply wp_load; simpl; [by rewrite lookup_insert|done|].
  destruct (blk_join _ _ _ _ _ HK Hd2 Hp) as (r'&?&?&?&?). exists r'. simpl. split_and!; auto.
Qed.
Lemma wpi_store p b off v f (Q : unit -> nat -> hPropI O) : off + length v <= length b ->
  p ↦b b -∗ (p ↦b (take off b ++ v ++ drop (off + length v) b) -∗ Q tt f) -∗ wpi (store (Some p) off v) f Q.
Proof.
  intros Hl. iIntros "H1 H2". iStopProof. apply wpi_intro. intros r fr orc H Hd. destruct (blk_split _ _ _ _ _ H Hd) as (r2&HK&Hd2&Hp&Hm&Ho).
  rewrite Hm Ho. eapply wp_store; simpl; [by rewrite lookup_insert|done|].
  destruct (blk_join _ _ _ _ _ HK Hd2 Hp) as (r'&?&?&E&?). exists r'. simpl in *. rewrite insert_insert E. split_and!; auto.
Qed.
Lemma wpi_memcpy_from p b doff src n f (Q : unit -> nat -> hPropI O) : n <= length src -> doff + n <= length b ->
  p ↦b b -∗ (p ↦b (take doff b ++ bytes_block (take n src) ++ drop (doff + n) b) -∗ Q tt f) -∗ wpi (memcpy_from (Some p) doff src n) f Q.
Proof.
  intros Hn Hl. iIntros "H1 H2". iStopProof. apply wpi_intro. intros r fr orc H Hd. destruct (blk_split _ _ _ _ _ H Hd) as (r2&HK&Hd2&Hp&Hm&Ho).
  rewrite Hm Ho. eapply wp_memcpy_from; simpl; [by rewrite lookup_insert|done|done|].
  destruct (blk_join _ _ _ _ _ HK Hd2 Hp) as (r'&?&?&E&?). exists r'. simpl in *. rewrite insert_insert E. split_and!; auto.
Qed.
Lemma wpi_realloc p b n f (Q : ptr -> nat -> hPropI O) :
  p ↦b b -∗ ((∀ q, q ↦b (take n b ++ fresh_block (n - length b)) -∗ Q (Some q) f) ∧ (p ↦b b -∗ Q None (S f))) -∗ wpi (realloc (Some p) n) f Q.
Proof.
  iIntros "H1 H2". iStopProof. apply wpi_intro. intros r fr orc H Hd. destruct (blk_split _ _ _ _ _ H Hd) as (r2&[HK1 HK2]&Hd2&Hp&Hm&Ho).
  rewrite Hm Ho. eapply wp_realloc; simpl; [by rewrite lookup_insert| |].
  - intros q o Hne Hq. rewrite lookup_insert_ne // in Hq. destruct (blk_join _ _ _ _ _ (HK1 q) Hd2 Hq) as (r'&?&?&E&?). exists r'. simpl in *.
    rewrite delete_insert // E.
  - intros o. destruct (blk_join _ _ _ _ _ HK2 Hd2 Hp) as (r'&?&?&E&?). exists r'. simpl in *. rewrite E. split_and!; auto.
Qed.
Lemma wpi_get_obj h o f (Q : O -> nat -> hPropI O) : h ↦o o -∗ (h ↦o o -∗ Q o f) -∗ wpi (get_obj h) f Q.
Proof.
  iIntros "H1 H2". iStopProof. apply wpi_intro. intros r fr orc H Hd. destruct (obj_split _ _ _ _ _ H Hd) as (r2&HK&Hd2&Hp&Hm&Ho).
  rewrite Hm Ho. eapply wp_get_obj; simpl; [by rewrite lookup_insert|].
  destruct (obj_join _ _ _ _ _ HK Hd2 Hp) as (r'&?&?&E&?). exists r'. simpl. split_and!; auto.
Qed.
Lemma wpi_set_obj h o o' f (Q : unit -> nat -> hPropI O) : h ↦o o -∗ (h ↦o o' -∗ Q tt f) -∗ wpi (set_obj h o') f Q.
Proof.
  iIntros "H1 H2". iStopProof. apply wpi_intro. intros r fr orc H Hd. destruct (obj_split _ _ _ _ _ H Hd) as (r2&HK&Hd2&Hp&Hm&Ho).
  rewrite Hm Ho. eapply wp_set_obj; simpl; [by rewrite lookup_insert|].
  destruct (obj_join _ _ _ _ _ HK Hd2 Hp) as (r'&?&?&E&?). exists r'. simpl in *. rewrite insert_insert E. split_and!; auto.
Qed.
Lemma wpi_free_obj h o f (Q : unit -> nat -> hPropI O) : h ↦o o -∗ Q tt f -∗ wpi (free_obj h) f Q.
Proof.
  iIntros "H1 H2". iStopProof. apply wpi_intro. intros r fr orc H Hd. destruct (obj_split _ _ _ _ _ H Hd) as (r2&HK&Hd2&Hp&Hm&Ho).
  rewrite Hm Ho. eapply wp_free_obj; simpl; [by rewrite lookup_insert|]. exists r2. simpl. rewrite delete_insert //.
Qed.

(** Two blocks, or two structs, cannot be at the same place. *)
Lemma blk_ne p q b b' : p ↦b b -∗ q ↦b b' -∗ ⌜p <> q⌝ : hPropI O.
Proof.
  iIntros "H1 H2". iStopProof. apply hentails_intro. intros r (r1&r2&->&[Hd _]&H1&H2). change (p <> q). intros ->. simpl in H1, H2. subst. simpl in Hd.
  apply map_disjoint_singleton_l in Hd. by rewrite lookup_singleton in Hd.
Qed.
Lemma obj_ne p q (o o' : O) : p ↦o o -∗ q ↦o o' -∗ ⌜p <> q⌝ : hPropI O.
Proof.
  iIntros "H1 H2". iStopProof. apply hentails_intro. intros r (r1&r2&->&[_ Hd]&H1&H2). change (p <> q). intros ->. simpl in H1, H2. subst. simpl in Hd.
  apply map_disjoint_singleton_l in Hd. by rewrite lookup_singleton in Hd.
Qed.

(** A string in a block of its own. *)
Definition str_at (p : positive) (l : list Z) : hPropI O := (∃ rest, ⌈zfree l⌉ ∗ p ↦b str_block l rest)%I.
(** A const char* argument: an array of the caller's (nothing is owned), or a heap string. *)
Definition arg_at (c : csrc) (l : list Z) : hPropI O :=
  match c with CExt arr => ⌈zfree l /\ exists rest, arr = l ++ 0%Z :: rest⌉ | CPtr p => str_at p l end%I.

Lemma arg_src c l K r fr orc f : hholds (arg_at c l ∗ K)%I r -> pdisj r fr -> src_is (St (pmem (punion r fr)) (pobjs (punion r fr)) orc f) c l.
Proof.
  intros H Hd. destruct c as [arr|p].
  - destruct H as (r1&r2&->&_&[_ H]&_). exact H.
  - simpl in H. unfold str_at in H. destruct H as (r1&r2&->&Hd'&(rest&r3&r4&->&Hd3&[_ Hz]&H4)&HK). simpl in H4. subst r4. split; [done|]. exists rest. simpl.
    apply pdisj_union_l in Hd as [Hd _]. apply pdisj_union_l in Hd' as [_ [Hd' _]]. simpl in Hd3.
    destruct Hd3 as [Hd3 _]. simpl in *. rewrite -assoc_L -assoc_L.
    rewrite lookup_union_r; [by apply lookup_union_Some_l, lookup_singleton|]. eapply map_disjoint_Some_r; [exact Hd3|]. by rewrite lookup_singleton.
Qed.
Lemma wpi_strlen c l f (Q : nat -> nat -> hPropI O) : arg_at c l -∗ (arg_at c l -∗ Q (length l) f) -∗ wpi (strlen c) f Q.
Proof.
  iIntros "H1 H2". iStopProof. apply wpi_intro. intros r fr orc H Hd. eapply wp_strlen; [by eapply arg_src|]. exists r. simpl. split; [done|]. split; [done|]. split; [done|]. split; [done|].
  eapply holds_mono; [|exact H]. iIntros "[H1 H2]". by iApply "H2".
Qed.
Lemma wpi_char_at c l i v f (Q : Z -> nat -> hPropI O) : l !! i = Some v -> arg_at c l -∗ (arg_at c l -∗ Q v f) -∗ wpi (char_at c i) f Q.
Proof.
  intros Hi. iIntros "H1 H2". iStopProof. apply wpi_intro. intros r fr orc H Hd. eapply wp_char_at; [by eapply arg_src|done|]. exists r. simpl. split; [done|]. split; [done|]. split; [done|]. split; [done|].
  eapply holds_mono; [|exact H]. iIntros "[H1 H2]". by iApply "H2".
Qed.
Lemma wpi_cells c l f (Q : block -> nat -> hPropI O) : arg_at c l -∗ (∀ rest, arg_at c l -∗ Q (str_block l rest) f) -∗ wpi (cells c) f Q.
Proof.
  iIntros "H1 H2". iStopProof. apply wpi_intro. intros r fr orc H Hd. eapply wp_cells; [by eapply arg_src|]. intros rest. exists r. simpl. split; [done|]. split; [done|]. split; [done|]. split; [done|].
  eapply holds_mono; [|exact H]. iIntros "[H1 H2]". by iApply "H2".
Qed.
Lemma arg_zfree c l : arg_at c l -∗ ⌜zfree l⌝.
Proof. destruct c; simpl; [by iIntros "%H"; destruct H|]. iIntros "(%rest&%H&_)". done. Qed.
Lemma cmp0_str l1 l2 (r1 r2 : block) : zfree l1 -> zfree l2 -> exists z, cmp0 (str_block l1 r1) (str_block l2 r2) = Some z /\ (z = 0%Z <-> l1 = l2).
Proof.
  intros H1. revert l2. unfold str_block. induction H1 as [|x l1 Hx _ IH]; intros l2 H2; destruct H2 as [|y l2 Hy H2]; simpl.
  - exists 0%Z. done.
  - destruct (decide (0%Z = y)); [done|]. eexists. split; [done|]. case_decide; done.
  - destruct (decide (x = 0%Z)); [done|]. eexists. split; [done|]. case_decide; done.
  - destruct (decide (x = y)) as [->|Hne].
    + rewrite decide_False //. destruct (IH l2 H2) as (z&E&Hz). exists z. split; [done|]. rewrite Hz. split; congruence.
    + eexists. split; [done|]. split; [case_decide; done|congruence].
Qed.
Lemma wpi_strcmp c1 c2 l1 l2 f (Q : Z -> nat -> hPropI O) :
  arg_at c1 l1 -∗ arg_at c2 l2 -∗ (∀ z, ⌈z = 0%Z <-> l1 = l2⌉ -∗ arg_at c1 l1 -∗ arg_at c2 l2 -∗ Q z f) -∗ wpi (strcmp c1 c2) f Q.
Proof.
  iIntros "H1 H2 H". iDestruct (arg_zfree with "H1") as %Hz1. iDestruct (arg_zfree with "H2") as %Hz2.
  iApply wpi_bind. iApply (wpi_cells with "H1"). iIntros (r1) "H1". iApply wpi_bind. iApply (wpi_cells with "H2"). iIntros (r2) "H2".
  destruct (cmp0_str l1 l2 r1 r2) as (z&->&Hz); [done..|]. iApply wpi_ret. by iApply ("H" with "[//] H1 H2").
Qed.
(** Copying a string, with its terminator, to the start of a block. *)
Lemma wpi_strcpy d b c l f (Q : unit -> nat -> hPropI O) : length l + 1 <= length b ->
  d ↦b b -∗ arg_at c l -∗ (str_at d l -∗ arg_at c l -∗ Q tt f) -∗ wpi (strcpy_n (Some d) 0 c 0 (length l + 1)) f Q.
Proof.
  iIntros (Hl) "Hd Hc H". iDestruct (arg_zfree with "Hc") as %Hz.
  assert (forall w, w = bytes_block (l ++ [0%Z]) -> take 0 b ++ w ++ drop (0 + (length l + 1)) b = str_block l (drop (length l + 1) b)) as Hw.
  { intros w ->. rewrite str_block_eq. done. }
  destruct c as [arr|p]; simpl.
  - iDestruct "Hc" as %[_ [rest ->]]. rewrite drop_0. iApply (wpi_memcpy_from with "Hd"); [rewrite app_length /=; lia|lia|]. iIntros "Hd".
    assert (take (length l + 1) (l ++ 0%Z :: rest) = l ++ [0%Z]) as ->.
    { change (l ++ 0%Z :: rest) with (l ++ [0%Z] ++ rest). rewrite assoc_L take_app_alt //. rewrite app_length //. }
    rewrite Hw //. iApply ("H" with "[Hd]"); [iExists _; by iFrame|]. iPureIntro. eauto.
  - unfold memcpy. rewrite decide_False; last lia. iDestruct "Hc" as (rest) "[_ Hc]". iDestruct (blk_ne with "Hd Hc") as %Hne.
    rewrite decide_False; last (intros [? _]; congruence). iApply wpi_bind. iApply (wpi_load with "Hc"); [rewrite str_block_length; lia|]. iIntros "Hc".
    assert (take (length l + 1) (drop 0 (str_block l rest)) = bytes_block (l ++ [0%Z])) as ->.
    { rewrite drop_0 str_block_eq take_app_alt // fmap_length app_length //. }
    iApply (wpi_store with "Hd"); [rewrite fmap_length app_length /=; lia|]. iIntros "Hd". rewrite fmap_length app_length. change (length [0%Z]) with 1. rewrite (Hw (bytes_block (l ++ [0%Z]))) //.
    iApply ("H" with "[Hd]"); iExists _; by iFrame.
Qed.
Lemma wpi_free_str p l f (Q : unit -> nat -> hPropI O) : str_at p l -∗ Q tt f -∗ wpi (free (Some p)) f Q.
Proof. iIntros "(%rest&_&H)". by iApply wpi_free. Qed.
End rules.

#[global] Instance arg_ext_affine {O} arr l : Affine (arg_at (O := O) (CExt arr) l).
Proof. rewrite /arg_at. apply _. Qed.

#[global] Arguments arg_at : simpl never.

(** Arrays. *)
From Verif Require Import CArr.
Section arrays.
Context {O E : Type} `{!Arr O E}.
Implicit Types a : list (option E).

Definition arr_at (h : positive) (a : list (option E)) : hPropI O := h ↦o mk_arr a.

Lemma wpi_arr_cells h a f (Q : list (option E) -> nat -> hPropI O) : arr_at h a -∗ (arr_at h a -∗ Q a f) -∗ wpi (arr_cells (Some h)) f Q.
Proof. iIntros "H1 H2". iApply wpi_bind. iApply (wpi_get_obj with "H1"). iIntros "H1". rewrite un_mk_arr. iApply wpi_ret. by iApply "H2". Qed.
Lemma wpi_arr_alloc sz n f (Q : ptr -> nat -> hPropI O) :
  (∀ h, arr_at h (replicate n None) -∗ Q (Some h) f) ∧ (∀ f', ⌜f <= f' /\ (f < f' \/ sz = None)⌝ → Q None f') -∗ wpi (arr_alloc sz n) f Q.
Proof.
  iIntros "H". destruct sz as [k|]; simpl; [|iApply wpi_ret; iDestruct "H" as "[_ H]"; iApply "H"; by auto].
  iApply wpi_new_obj. iSplit; [by iDestruct "H" as "[H _]"|]. iDestruct "H" as "[_ H]". iApply "H". auto.
Qed.
Lemma wpi_arr_free h a f (Q : unit -> nat -> hPropI O) : arr_at h a -∗ Q tt f -∗ wpi (arr_free (Some h)) f Q.
Proof. iIntros "H1 H2". iApply wpi_bind. iApply (wpi_arr_cells with "H1"). iIntros "H1". by iApply (wpi_free_obj with "H1"). Qed.
Lemma wpi_arr_realloc sz h a n f (Q : ptr -> nat -> hPropI O) :
  arr_at h a -∗ ((∀ h', arr_at h' (take n a ++ replicate (n - length a) None) -∗ Q (Some h') f) ∧ (∀ f', ⌜f <= f' /\ (f < f' \/ sz = None)⌝ → arr_at h a -∗ Q None f')) -∗
  wpi (arr_realloc sz (Some h) n) f Q.
Proof.
  iIntros "H1 H". destruct sz as [k|]; simpl; [|iApply wpi_ret; iDestruct "H" as "[_ H]"; iApply ("H" with "[] H1"); by auto].
  iApply wpi_bind. iApply (wpi_arr_cells with "H1"). iIntros "H1". iApply wpi_bind. iApply wpi_new_obj. iSplit.
  - iIntros (h') "H2". iApply wpi_bind. iApply (wpi_free_obj with "H1"). iApply wpi_ret. iDestruct "H" as "[H _]". by iApply "H".
  - iApply wpi_ret. iDestruct "H" as "[_ H]". iApply ("H" with "[] H1"). auto.
Qed.
Lemma wpi_arr_realloc_null sz n f (Q : ptr -> nat -> hPropI O) :
  (∀ h, arr_at h (replicate n None) -∗ Q (Some h) f) ∧ (∀ f', ⌜f <= f' /\ (f < f' \/ sz = None)⌝ → Q None f') -∗ wpi (arr_realloc sz None n) f Q.
Proof. iIntros "H". iPoseProof (wpi_arr_alloc with "H") as "H". unfold arr_alloc, arr_realloc. destruct sz; done. Qed.
Lemma wpi_arr_get h a i v f (Q : E -> nat -> hPropI O) : a !! i = Some (Some v) -> arr_at h a -∗ (arr_at h a -∗ Q v f) -∗ wpi (arr_get (Some h) i) f Q.
Proof. iIntros (Hi) "H1 H2". iApply wpi_bind. iApply (wpi_arr_cells with "H1"). iIntros "H1". rewrite Hi. iApply wpi_ret. by iApply "H2". Qed.
Lemma wpi_arr_set h a i v f (Q : unit -> nat -> hPropI O) : i < length a -> arr_at h a -∗ (arr_at h (<[i := Some v]> a) -∗ Q tt f) -∗ wpi (arr_set (Some h) i v) f Q.
Proof. iIntros (Hi) "H1 H2". iApply wpi_bind. iApply (wpi_arr_cells with "H1"). iIntros "H1". rewrite decide_True //. by iApply (wpi_set_obj with "H1"). Qed.
Lemma wpi_arr_move h a d i n f (Q : unit -> nat -> hPropI O) : i + n <= length a -> d + n <= length a ->
  arr_at h a -∗ (arr_at h (take d a ++ take n (drop i a) ++ drop (d + n) a) -∗ Q tt f) -∗ wpi (arr_move (Some h) d i n) f Q.
Proof. iIntros (Hi Hd) "H1 H2". iApply wpi_bind. iApply (wpi_arr_cells with "H1"). iIntros "H1". rewrite decide_True //. by iApply (wpi_set_obj with "H1"). Qed.
End arrays.
