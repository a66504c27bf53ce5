(** More proofs for ConstBufProps. *)
From Verif Require Import CslRules Rc CslPool.
From Verif Require Import Common Block BlockFacts CMem CMemFacts Prog MemDataModel MemDataSpec MemDataProofs ConstBufModel ConstBufSpec ConstBufProofs.

Notation ref_own h c := (own (Ref h c)).
Lemma spec_inc r f : hold (hold_ref r) ⊢ goal_of (IncRef r) f.
Proof.
  iIntros "H". unfold run, CONSTBUFFER_IncRef. destruct r as [[h c]|]; simpl; [|step; by iApply (finish (IncRef None))].
  rewrite hold_one. iDestruct "H" as (v) "[%Hv H]". step. iApply (cwp_inc with "H"). iIntros (x f1) "%Hf1 H1 H2". step. iApply (finish (IncRef (Some (h, c)))); [done|done|].
  simpl. rewrite hold_cons hold_one. iSplitL "H1"; iExists v; by iFrame.
Qed.
Lemma wf_leaf lf vs : wf_v lf vs -> lf_wf lf.
Proof. induction vs as [|[[??]?] vs IH]; simpl; [done|]. naive_solver. Qed.
Lemma spec_dec r f : hold (hold_ref r) ⊢ goal_of (DecRef r) f.
Proof.
  iIntros "H". unfold run, CONSTBUFFER_DecRef. destruct r as [[h c]|]; simpl; [|step; by iApply (finish (DecRef None))].
  rewrite hold_one. iDestruct "H" as (v) "[%Hv H]". destruct v as [lf vs]. sub. iApply (cwp_DecRef_loop with "H"); [by eapply wf_leaf, Hv|by rewrite lift_emp|]. iIntros (f1) "%Hf1". by iApply (finish (DecRef (Some (h, c)))).
Qed.
Lemma spec_read r f : hold (hold_ref r) ⊢ goal_of (Read r) f.
Proof.
  iIntros "H". unfold run, CONSTBUFFER_GetContent. destruct r as [[h c]|]; simpl; [|step; by iApply (finish (Read None))].
  rewrite hold_one. iDestruct "H" as (v) "[%Hv H]". destruct Hv as [Hw Hc]. step. iApply (cwp_look with "H"). iIntros (n f1) "%Hf1 H". step. unfold struct_of. simpl.
  iApply (cwp_values with "H"); [done|done|unfold size_of; rewrite Hc; lia|]. iIntros (f2) "%Hf2 H". step. iApply (finish (Read (Some (h, c)))); [lia| |].
  - simpl. rewrite Hc /size_of Nat2Z.id firstn_all //.
  - simpl. rewrite hold_one. iExists v. by iFrame "H".
Qed.
Lemma cwp_same (Q : bool -> nat -> cP) h v c h' v' c' P f : wf v -> content v = c -> wf v' -> content v' = c' ->
  (forall (k : cbuf -> code bool) f, P -∗ (∀ n f', ⌈f <= f'⌉ -∗ P -∗ cwp CInv (k (struct_of h v n)) f' Q) -∗ cwp CInv (Act (get_obj h) k) f Q) ->
  (forall (k : cbuf -> code bool) f, P -∗ (∀ n f', ⌈f <= f'⌉ -∗ P -∗ cwp CInv (k (struct_of h' v' n)) f' Q) -∗ cwp CInv (Act (get_obj h') k) f Q) ->
  (forall len (k : bytes -> code bool) f, len <= length c -> P -∗ (∀ f', ⌈f <= f'⌉ -∗ P -∗ cwp CInv (k (take len c)) f' Q) -∗ cwp CInv (Act (bind (read_addr (addr_of h v) len) values) k) f Q) ->
  (forall len (k : bytes -> code bool) f, len <= length c' -> P -∗ (∀ f', ⌈f <= f'⌉ -∗ P -∗ cwp CInv (k (take len c')) f' Q) -∗ cwp CInv (Act (bind (read_addr (addr_of h' v') len) values) k) f Q) ->
  P -∗ (∀ f', ⌈f <= f'⌉ -∗ P -∗ Q (bool_decide (c = c')) f') -∗ cwp CInv (CONSTBUFFER_HANDLE_contain_same (Some h) (Some h')) f Q.
Proof.
  intros Hw Hc Hw' Hc' H1 H2 H3 H4. iIntros "H HQ". unfold CONSTBUFFER_HANDLE_contain_same. step. iApply (H1 with "H"). iIntros (n f1) "%Hf1 H". step. iApply (H2 with "H"). iIntros (n' f2) "%Hf2 H". step.
  unfold struct_of. simpl. rewrite Hc Hc' /size_of. destruct (decide (Z.of_nat (length c) <> Z.of_nat (length c'))) as [Hn|Hn].
  - iApply cwp_ret. iApply upd_intro. rewrite (bool_decide_eq_false_2 (c = c')); [|by intros ->]. iApply ("HQ" with "[] H"). iPureIntro. lia.
  - step. rewrite Nat2Z.id. iApply (H3 with "H"); [done|]. iIntros (f3) "%Hf3 H". step. iApply (H4 with "H"); [lia|]. iIntros (f4) "%Hf4 H". step. iApply cwp_ret. iApply upd_intro.
    assert (E : length c = length c') by lia. replace (take (length c) c') with c' by (by rewrite E firstn_all). rewrite firstn_all. iApply ("HQ" with "[] H"). iPureIntro. lia.
Qed.
Lemma spec_same l r f : hold (uses (ContainSame l r)) ⊢ goal_of (ContainSame l r) f.
Proof.
  iIntros "H". unfold run. destruct l as [[h c]|], r as [[h' c']|]; simpl; try (simpl; step; by iApply (finish (ContainSame _ _))).
  - destruct (decide (Some (h, c) = Some (h', c'))) as [E|E].
    + injection E as <- <-. rewrite hold_one. iDestruct "H" as (v) "[%Hv H]". destruct Hv as [Hw Hc]. sub. iApply (cwp_same _ h v c h v c with "H"); [done..| | | | |].
      * intros k f0. apply cwp_look.
      * intros k f0. apply cwp_look.
      * intros len k f0 Hl. by apply cwp_values.
      * intros len k f0 Hl. by apply cwp_values.
      * iIntros (f') "%Hf H". iApply (finish (ContainSame (Some (h, c)) (Some (h, c)))); [done|simpl; by rewrite !bool_decide_eq_true_2|]. simpl. rewrite decide_True // hold_one. iExists v. by iFrame "H".
    + rewrite hold_cons hold_one. iDestruct "H" as "[H1 H2]". iDestruct "H1" as (v) "[%Hv H1]". iDestruct "H2" as (v') "[%Hv' H2]". destruct Hv as [Hw Hc], Hv' as [Hw' Hc']. sub.
      iApply (cwp_same _ h v c h' v' c' (tok (h, v) ∗ tok (h', v'))%I with "[H1 H2]"); [done..| | | | |by iFrame "H1 H2"|].
      * intros k f0. iIntros "[H1 H2] H". iApply (cwp_look with "H1"). iIntros (n f') "%Hf H1". iApply ("H" with "[//] [H1 H2]"). iFrame "H1 H2".
      * intros k f0. iIntros "[H1 H2] H". iApply (cwp_look with "H2"). iIntros (n f') "%Hf H2". iApply ("H" with "[//] [H1 H2]"). iFrame "H1 H2".
      * intros len k f0 Hl. iIntros "[H1 H2] H". iApply (cwp_values with "H1"); [done..|]. iIntros (f') "%Hf H1". iApply ("H" with "[//] [H1 H2]"). iFrame "H1 H2".
      * intros len k f0 Hl. iIntros "[H1 H2] H". iApply (cwp_values with "H2"); [done..|]. iIntros (f') "%Hf H2". iApply ("H" with "[//] [H1 H2]"). iFrame "H1 H2".
      * iIntros (f') "%Hf [H1 H2]". iApply (finish (ContainSame (Some (h, c)) (Some (h', c')))); [done| |].
        { simpl. apply bool_decide_ext. split; congruence. }
        cbn [gives uses]. rewrite decide_False //. simpl. rewrite hold_cons hold_one. iSplitL "H1"; [iExists v|iExists v']; by iFrame.
Qed.
Lemma add_small n : (0 <= n)%Z -> (5 + n <= UINT32_MAX)%Z -> u32 (CONSTBUFFER_VERSION_SIZE + CONSTBUFFER_SIZE_SIZE + n) = (5 + n)%Z.
Proof. intros. unfold CONSTBUFFER_VERSION_SIZE, CONSTBUFFER_SIZE_SIZE. rewrite u32_small; [lia|]. unfold is_u32. lia. Qed.
Lemma spec_size r f : hold (hold_ref r) ⊢ goal_of (GetSerializationSize r) f.
Proof.
  iIntros "H". unfold run, CONSTBUFFER_get_serialization_size. destruct r as [[h c]|]; simpl; [|step; by iApply (finish (GetSerializationSize None))].
  rewrite hold_one. iDestruct "H" as (v) "[%Hv H]". destruct Hv as [Hw Hc]. step. iApply (cwp_look with "H"). iIntros (n f1) "%Hf1 H". step. unfold struct_of. simpl. rewrite Hc.
  assert (0 <= size_of c)%Z by (unfold size_of; lia).
  destruct (Z.gtb_spec (size_of c) (UINT32_MAX - CONSTBUFFER_VERSION_SIZE - CONSTBUFFER_SIZE_SIZE)) as [E|E]; step; (iApply (finish (GetSerializationSize (Some (h, c)))); [done| |simpl; rewrite hold_one; iExists v; by iFrame "H"]);
    unfold CONSTBUFFER_VERSION_SIZE, CONSTBUFFER_SIZE_SIZE in E; cbn [answers].
  - by rewrite decide_False; [|lia].
  - rewrite decide_True; [|lia]. by rewrite add_small; [|lia|lia].
Qed.

(** Serialisation. *)
Lemma wpi_on_block {A} p b b' (m : M block A) a f (Q : A -> nat -> hPropI cbuf) : m b = Done (a, b') -> p ↦b b -∗ (p ↦b b' -∗ Q a f) -∗ wpi (on_block p m) f Q.
Proof.
  intros Hm. iIntros "H1 H2". iStopProof. apply wpi_intro. intros r fr orc H Hd. destruct (blk_split _ _ _ _ _ H Hd) as (r2&HK&Hd2&Hp&Hme&Ho).
  rewrite Hme Ho. unfold wp, on_block. simpl. rewrite lookup_insert Hm.
  destruct (blk_join _ _ _ _ _ HK Hd2 Hp) as (r'&?&?&E&?). exists r'. simpl in *. rewrite insert_insert E. split_and!; auto.
Qed.
Lemma cwp_on_block {A B : Type} (Q : B -> nat -> cP) p b b' (m : M block A) a (k : A -> code B) f : m b = Done (a, b') ->
  lift (p ↦b b) -∗ (∀ f', ⌈f <= f'⌉ -∗ lift (p ↦b b') -∗ cwp CInv (k a) f' Q) -∗ cwp CInv (Act (on_block p m) k) f Q.
Proof.
  intros Hm. iIntros "H1 H2". iApply (cwp_det _ _ _ _ (fun x => x = a) _ (p ↦b b')%I with "H1").
  - intros f'. iIntros "H". iApply (wpi_on_block with "H"); [done|]. iIntros "H". by iFrame "H".
  - iIntros (x f') "%Hf H1". destruct Hf as [Hf ->]. by iApply ("H2" with "[//] H1").
Qed.
Lemma cwp_write_block {B : Type} (Q : B -> nat -> cP) p b off v (k : unit -> code B) f : off + length v <= length b ->
  lift (p ↦b b) -∗ (∀ f', ⌈f <= f'⌉ -∗ lift (p ↦b (take off b ++ v ++ drop (off + length v) b)) -∗ cwp CInv (k tt) f' Q) -∗ cwp CInv (Act (write_addr (ABlock p off) v) k) f Q.
Proof.
  intros Hl. iIntros "H1 H2". iApply (cwp_det _ _ _ _ (fun _ => True) _ (p ↦b (take off b ++ v ++ drop (off + length v) b))%I with "H1").
  - intros f'. iIntros "H". unfold write_addr. destruct (decide (length v = 0)) as [E|E].
    + iApply wpi_ret. destruct v; [|done]. simpl. rewrite Nat.add_0_r take_drop. by iFrame "H".
    + iApply (wpi_store with "H"); [done|]. iIntros "H". by iFrame "H".
  - iIntros ([] f') "%Hf H1". destruct Hf as [Hf _]. by iApply ("H2" with "[//] H1").
Qed.
Lemma write_all b c : 5 + length c <= length b ->
  let b2 := put_at 1 (be_bytes 4 (size_of c)) (put_at 0 (be_bytes 1 1) b) in
  take 5 b2 ++ bytes_block c ++ drop (5 + length (bytes_block c)) b2 = bytes_block (serialized c) ++ drop (5 + length c) b /\ length b2 = length b.
Proof.
  intros Hl. destruct b as [|x0 [|x1 [|x2 [|x3 [|x4 b]]]]]; simpl in Hl; try lia. unfold put_at, serialized. cbn [take drop app length]. generalize (be_bytes_length 4 (size_of c)). generalize (be_bytes 4 (size_of c)).
  intros e He. destruct e as [|e0 [|e1 [|e2 [|e3 [|]]]]]; try done. cbn. unfold bytes_block. rewrite fmap_length. split; [|done]. done.
Qed.
Lemma cwp_serialize (Q : unit -> nat -> cP) p b h v n c f : wf v -> content v = c -> 5 + length c <= length b ->
  tok (h, v) -∗ lift (p ↦b b) -∗ (∀ f', ⌈f <= f'⌉ -∗ tok (h, v) -∗ lift (p ↦b (bytes_block (serialized c) ++ drop (5 + length c) b)) -∗ Q tt f') -∗ cwp CInv (serialize p (struct_of h v n)) f Q.
Proof.
  intros Hw Hc Hl. iIntros "H1 H2 HQ". unfold serialize. destruct (write_all b c Hl) as [E El]. cbn zeta in E, El.
  change (size (struct_of h v n)) with (size_of (content v)). rewrite Hc. change (buffer (struct_of h v n)) with (addr_of h v). rewrite -(addr_add_0 (addr_of h v)).
  unfold CONSTBUFFER_VERSION_OFFSET, CONSTBUFFER_VERSION_V1, CONSTBUFFER_SIZE_OFFSET, CONSTBUFFER_CONTENT_OFFSET. step.
  iApply (cwp_on_block with "H2"); [apply write_uint8_ok; lia|]. iIntros (f1) "%Hf1 H2". step.
  iApply (cwp_on_block with "H2").
  { apply write_uint32_ok. assert (length (put_at 0 (be_bytes 1 1) b) = length b) as ->; [|lia]. unfold put_at. simpl. destruct b; simpl in *; [lia|done]. }
  iIntros (f2) "%Hf2 H2". step.
  iApply (cwp_read_addr with "H1"); [done|done|rewrite /size_of; lia|]. iIntros (f3) "%Hf3 H1". step. replace (take (Z.to_nat (size_of c)) (drop 0 c)) with c by (by rewrite drop_0 /size_of Nat2Z.id firstn_all).
  iApply (cwp_write_block with "H2"). { unfold bytes_block at 1. rewrite fmap_length El. done. }
  iIntros (f4) "%Hf4 H2". iApply cwp_ret. iApply upd_intro. iApply ("HQ" with "[] H1 [H2]"); [iPureIntro; lia|]. rewrite -E. iFrame "H2".
Qed.
Lemma size_serialized c : size_of (serialized c) = (5 + size_of c)%Z.
Proof. unfold serialized, size_of. cbn [length]. rewrite app_length be_bytes_length. lia. Qed.
Lemma spec_to_buffer r out f : hold (hold_ref r) ⊢ goal_of (ToBuffer r out) f.
Proof.
  iIntros "H". unfold run, CONSTBUFFER_to_buffer. destruct r as [[h c]|]; simpl; [|step; by iApply (finish (ToBuffer None out))].
  destruct out; [|step; by iApply (finish (ToBuffer (Some (h, c)) false))].
  rewrite hold_one. iDestruct "H" as (v) "[%Hv H]". destruct Hv as [Hw Hc]. step. iApply (cwp_look with "H"). iIntros (n f1) "%Hf1 H". step. change (size (struct_of h v n)) with (size_of (content v)). rewrite Hc.
  assert (0 <= size_of c)%Z by (unfold size_of; lia). unfold CONSTBUFFER_VERSION_SIZE at 1, CONSTBUFFER_SIZE_SIZE at 1.
  destruct (Z.ltb_spec (UINT32_MAX - 1 - 4) (size_of c)) as [E|E]; step.
  - iApply (finish (ToBuffer (Some (h, c)) true)); [done| |simpl; rewrite hold_one; iExists v; by iFrame "H"]. apply dec_no; [lia|done].
  - rewrite !add_small; [|lia..]. iApply cwp_malloc. iSplit.
    + iIntros (p f2) "%Hf2 H2". step. sub. sub. iApply (cwp_serialize with "H H2"); [done|done|unfold fresh_block; rewrite replicate_length; unfold size_of; lia|]. iIntros (f3) "%Hf3 H1 H2". iApply cwp_ret. iApply upd_intro.
      iApply (finish (ToBuffer (Some (h, c)) true)); [lia| |].
      * apply dec_yes; [lia|]. by rewrite size_serialized.
      * simpl. rewrite hold_cons hold_one. iSplitL "H1"; [iExists v; by iFrame "H1"|]. simpl. rewrite drop_ge; [|unfold fresh_block; rewrite replicate_length; unfold size_of; lia]. rewrite app_nil_r. iFrame "H2".
    + iIntros (f2) "%Hf2". step. iApply (finish (ToBuffer (Some (h, c)) true)); [lia| |simpl; rewrite hold_one; iExists v; by iFrame "H"]. apply dec_yes; lia.
Qed.
Lemma own_tail x n l p : lift (p ↦b (bytes_block x ++ drop n (bytes_block l))) ⊢ own (Mem p (x ++ drop n l)).
Proof. unfold own, bytes_block. by rewrite fmap_app fmap_drop. Qed.
Lemma spec_to_fixed r d n out f : allowed (ToFixedSizeBuffer r d n out) -> hold (hold_ref r ++ hold_mem d) ⊢ goal_of (ToFixedSizeBuffer r d n out) f.
Proof.
  intros [Hu Hd]. iIntros "H". unfold run, CONSTBUFFER_to_fixed_size_buffer. destruct r as [[h c]|]; simpl; [|step; by iApply (finish (ToFixedSizeBuffer None d n out))].
  destruct d as [[p l]|]; simpl; [|step; by iApply (finish (ToFixedSizeBuffer (Some (h, c)) None n out))].
  destruct out; [|step; by iApply (finish (ToFixedSizeBuffer (Some (h, c)) (Some (p, l)) n false))].
  rewrite hold_cons hold_one. iDestruct "H" as "[H H2]". iDestruct "H" as (v) "[%Hv H]". destruct Hv as [Hw Hc]. step. iApply (cwp_look with "H"). iIntros (m f1) "%Hf1 H". step. change (size (struct_of h v m)) with (size_of (content v)). rewrite Hc.
  assert (0 <= size_of c)%Z by (unfold size_of; lia). unfold CONSTBUFFER_VERSION_SIZE at 1, CONSTBUFFER_SIZE_SIZE at 1.
  destruct (Z.ltb_spec (UINT32_MAX - (1 + 4)) (size_of c)) as [E|E]; step.
  - iApply (finish (ToFixedSizeBuffer (Some (h, c)) (Some (p, l)) n true)); [done| |].
    + apply dec_no; [lia|done].
    + simpl. rewrite hold_cons hold_one. iFrame "H2". iExists v. by iFrame "H".
  - rewrite !add_small; [|lia..]. destruct (Z.ltb_spec n (5 + size_of c)) as [E2|E2]; step.
    + iApply (finish (ToFixedSizeBuffer (Some (h, c)) (Some (p, l)) n true)); [done| |].
      * apply dec_yes; [lia|]. rewrite size_serialized. split; [done|]. by rewrite decide_False; [|lia].
      * simpl. rewrite hold_cons hold_one. iFrame "H2". iExists v. by iFrame "H".
    + sub. sub. iApply (cwp_serialize with "H H2"); [done|done|unfold bytes_block; rewrite fmap_length; unfold size_of in *; lia|]. iIntros (f3) "%Hf3 H1 H2". iApply cwp_ret. iApply upd_intro.
      iApply (finish (ToFixedSizeBuffer (Some (h, c)) (Some (p, l)) n true)); [lia| |].
      * apply dec_yes; [lia|]. rewrite size_serialized. split; [done|]. by rewrite decide_True; [|lia].
      * simpl. rewrite hold_cons hold_one. iSplitL "H1"; [iExists v; by iFrame "H1"|]. iApply (own_tail (serialized c) (5 + length c)). iFrame "H2".
Qed.

(** Deserialisation. *)
Lemma block_has l i x : l !! i = Some x -> bytes_block l !! i = Some (Some x).
Proof. intros H. unfold bytes_block. rewrite list_lookup_fmap H //. Qed.
Lemma four_bytes l : all_bytes l -> length l = 4 -> be_bytes 4 (be_value l) = l.
Proof.
  intros Hb Hl. destruct l as [|a [|b [|c [|d [|]]]]]; try done. unfold all_bytes in Hb. rewrite !Forall_cons in Hb. unfold is_byte in Hb. destruct Hb as (Ha&Hb&Hc&Hd&_).
  cbn [be_value be_bytes length]. change (256 ^ Z.of_nat 3)%Z with 16777216%Z. change (256 ^ Z.of_nat 2)%Z with 65536%Z. change (256 ^ Z.of_nat 1)%Z with 256%Z. change (256 ^ Z.of_nat 0)%Z with 1%Z.
  Ltac Zify.zify_post_hook ::= Z.div_mod_to_equations. repeat f_equal; lia.
Qed.
Lemma parsed_iff l c : all_bytes l -> parsed l c <->
  5 <= length l /\ nth 0 l 0%Z = 1%Z /\ (be_value (slice 1 4 l) <= Z.of_nat (length l) - 5)%Z /\ c = slice 5 (Z.to_nat (be_value (slice 1 4 l))) l.
Proof.
  intros Hb. unfold parsed, serialized, size_of. split.
  - intros (rest&->&Hs). generalize (be_bytes_length 4 (Z.of_nat (length c))) (be_value_bytes 4 (Z.of_nat (length c))). generalize (be_bytes 4 (Z.of_nat (length c))). intros e He Hv.
    assert (be_value e = Z.of_nat (length c)) as Hv'. { rewrite Hv. change (256 ^ Z.of_nat 4)%Z with 4294967296%Z. unfold UINT32_MAX in Hs. apply Z.mod_small. lia. } clear Hv.
    destruct e as [|e0 [|e1 [|e2 [|e3 [|]]]]]; try done. unfold slice. cbn [app length drop nth]. rewrite app_length. change (take 4 (e0 :: e1 :: e2 :: e3 :: c ++ rest)) with [e0; e1; e2; e3]. rewrite Hv'.
    split_and!; [lia|done|lia|]. by rewrite Nat2Z.id take_app.
  - intros (Hl&H0&Hv&->). destruct l as [|x0 [|x1 [|x2 [|x3 [|x4 l]]]]]; simpl in Hl; try lia. simpl in H0. subst x0. unfold slice in *. cbn [drop] in *. change (take 4 (x1 :: x2 :: x3 :: x4 :: l)) with [x1; x2; x3; x4] in *.
    unfold all_bytes in Hb. assert (Hb4 : all_bytes [x1; x2; x3; x4]). { rewrite !Forall_cons in Hb. unfold all_bytes. rewrite !Forall_cons Forall_nil. tauto. }
    pose proof (be_value_bound _ Hb4) as Hbd. set (v := be_value [x1; x2; x3; x4]) in *. cbn [length] in Hbd, Hv. change (256 ^ Z.of_nat 4)%Z with 4294967296%Z in Hbd.
    exists (drop (Z.to_nat v) l). rewrite drop_0 take_length Nat.min_l; [|lia]. rewrite Z2Nat.id; [|lia]. unfold v at 1. rewrite four_bytes //. split; [|unfold UINT32_MAX; lia]. simpl. by rewrite take_drop.
Qed.
Lemma all_bytes_take n l : all_bytes l -> all_bytes (take n l).
Proof. apply Forall_take. Qed.
Lemma all_bytes_drop n l : all_bytes l -> all_bytes (drop n l).
Proof. apply Forall_drop. Qed.
Lemma spec_from src n consumed destination f : allowed (FromBuffer src n consumed destination) -> hold (hold_mem src) ⊢ goal_of (FromBuffer src n consumed destination) f.
Proof.
  intros [Hu Hs]. iIntros "H". unfold run, CONSTBUFFER_from_buffer. destruct src as [[p l]|]; simpl; [|step; by iApply (finish (FromBuffer None n consumed destination))].
  destruct Hs as [Hn Hb]. destruct consumed; [|step; by iApply (finish (FromBuffer (Some (p, l)) n false destination))].
  destruct destination; [|step; by iApply (finish (FromBuffer (Some (p, l)) n true false))]. set (o := FromBuffer (Some (p, l)) n true true).
  destruct (decide (n = 0%Z)) as [->|Hne].
  { step. iApply (finish (FromBuffer (Some (p, l)) 0 true true)); [done| |done]. by apply dec_yes. }
  unfold is_u32 in Hu. assert (Hl0 : 1 <= length l) by lia. rewrite hold_one. unfold own at 1.
  assert (Hbn : all_bytes (take (Z.to_nat n) l)) by by apply all_bytes_take.
  assert (Hln : length (take (Z.to_nat n) l) = Z.to_nat n) by (rewrite take_length; lia).
  unfold CONSTBUFFER_VERSION_OFFSET, CONSTBUFFER_VERSION_V1, CONSTBUFFER_SIZE_OFFSET, CONSTBUFFER_CONTENT_OFFSET. step.
  destruct l as [|x0 l']; [simpl in Hl0; lia|]. set (l := x0 :: l') in *.
  iApply (cwp_on_block with "H").
  { apply (read_uint8_ok 0 [x0]); [done| |]. - unfold all_bytes in Hb. rewrite Forall_cons in Hb. repeat constructor; apply Hb. - intros i y Hi. apply block_has. by destruct i as [|[|i]]. }
  iIntros (f1) "%Hf1 H". step. replace (be_value [x0]) with x0 by (simpl; lia). assert (Hx0 : nth 0 (take (Z.to_nat n) l) 0%Z = x0). { replace (Z.to_nat n) with (S (Z.to_nat n - 1)) by lia. done. }
  destruct (decide (x0 <> 1%Z)) as [Hv|Hv].
  { step. iApply (finish o); [done| |unfold o; simpl; rewrite hold_one; iFrame "H"]. apply dec_no; [done|]. intros c Hc. apply parsed_iff in Hc; [|done]. rewrite Hx0 in Hc. tauto. }
  assert (x0 = 1%Z) as Hx1 by lia. unfold CONSTBUFFER_VERSION_SIZE at 1, CONSTBUFFER_SIZE_SIZE at 1. destruct (Z.ltb_spec n (1 + 4)) as [Hn5|Hn5].
  { step. iApply (finish o); [done| |unfold o; simpl; rewrite hold_one; iFrame "H"]. apply dec_no; [done|]. intros c Hc. apply parsed_iff in Hc; [|done]. rewrite Hln in Hc. lia. }
  assert (Hs4 : slice 1 4 (take (Z.to_nat n) l) = slice 1 4 l). { unfold slice. rewrite skipn_firstn_comm take_take. f_equal. lia. }
  assert (Hb4 : all_bytes (slice 1 4 l)) by (unfold slice; apply all_bytes_take, all_bytes_drop, Hb).
  assert (Hl4 : length (slice 1 4 l) = 4) by (unfold slice; rewrite take_length drop_length; lia).
  step. iApply (cwp_on_block with "H").
  { apply (read_uint32_ok 1 (slice 1 4 l)); [done|done|]. intros i y Hi. apply block_has. unfold slice in Hi. rewrite lookup_take_Some lookup_drop in Hi. tauto. }
  iIntros (f2) "%Hf2 H". step. pose proof (be_value_bound _ Hb4) as Hbd. rewrite Hl4 in Hbd. change (256 ^ Z.of_nat 4)%Z with 4294967296%Z in Hbd. set (v := be_value (slice 1 4 l)) in *.
  unfold CONSTBUFFER_VERSION_SIZE at 1, CONSTBUFFER_SIZE_SIZE at 1. rewrite u32_small; [|unfold is_u32; lia]. destruct (Z.ltb_spec (n - (1 + 4)) v) as [Hv5|Hv5].
  { step. iApply (finish o); [lia| |unfold o; simpl; rewrite hold_one; iFrame "H"]. apply dec_no; [done|]. intros c Hc. apply parsed_iff in Hc; [|done]. rewrite Hln Hs4 in Hc. fold v in Hc. lia. }
  assert (Hp : parsed (take (Z.to_nat n) l) (slice 5 (Z.to_nat v) l)).
  { apply parsed_iff; [done|]. rewrite Hln Hs4 Hx0. fold v. split_and!; [lia|done|lia|]. unfold slice. rewrite skipn_firstn_comm take_take. f_equal. lia. }
  sub. sub. iApply (cwp_create _ _ _ (slice 5 (Z.to_nat v) l) (lift (p ↦b bytes_block l)) with "H"); [unfold is_u32, UINT32_MAX; lia|unfold slice; rewrite take_length drop_length; lia| |].
  - intros k f3. iIntros "H1 H2". iApply (cwp_det _ _ _ _ (fun x => x = bytes_block (slice 5 (Z.to_nat v) l)) _ (p ↦b bytes_block l)%I with "H1").
    + intros f'. iIntros "H". cbn [read_source]. unfold read_addr. destruct (decide (Z.to_nat v = 0)) as [E|E].
      * iApply wpi_ret. iFrame "H". iPureIntro. split; [|done]. unfold slice. by rewrite E.
      * iApply (wpi_load with "H"); [rewrite bytes_block_length; lia|]. iIntros "H". iFrame "H". iPureIntro. split; [|done]. apply bytes_block_sub.
    + iIntros (x f') "%Hf H1". destruct Hf as [Hf ->]. by iApply ("H2" with "[//] H1").
  - assert (Hlen : length (slice 5 (Z.to_nat v) l) = Z.to_nat v) by (unfold slice; rewrite take_length drop_length; lia).
    iIntros (r f') "%Hf H1 H2". destruct r as [h|]; step; iApply cwp_ret; iApply upd_intro; (iApply (finish o); [lia| |]).
    + apply dec_no; [done|]. cbn [fst snd]. eexists. split; [exact Hp|]. rewrite size_serialized /size_of Hlen. rewrite Z2Nat.id; [|lia]. apply add_small; lia.
    + unfold o. cbn [gives fst snd]. rewrite hold_cons. iFrame "H1". rewrite add_small; [|lia..]. replace (Z.to_nat (5 + v) - 5) with (Z.to_nat v) by lia. iFrame "H2".
    + apply dec_no; [done|]. cbn [fst snd]. split; [|by eexists]. destruct Hf as [Hf1' Hm]. specialize (Hm eq_refl). lia.
    + unfold o. simpl. rewrite hold_one. iFrame "H1".
Qed.

(** Writable buffers. *)
Lemma spec_writable sz f : allowed (CreateWritableHandle sz) -> ⊢ goal_of (CreateWritableHandle sz) f.
Proof.
  intros Hu. unfold run, CONSTBUFFER_CreateWritableHandle. simpl in Hu. unfold is_u32 in Hu. destruct (decide (sz = 0%Z)) as [->|Hn].
  { step. iApply (finish (CreateWritableHandle 0)); [done|by apply dec_yes|done]. }
  step. iApply cwp_new_obj. iSplit.
  - iIntros (h f1) "%Hf1 H". step. iApply (cwp_set_obj with "H"). iIntros (f2) "%Hf2 H". step. iApply (finish (CreateWritableHandle sz)); [lia|apply dec_no; [done|intros ?; done]|].
    simpl. rewrite hold_one. unfold own, fresh_block. rewrite replicate_length Z2Nat.id; [|lia]. iFrame "H". iPureIntro. split; [|lia]. destruct (Z.to_nat sz) eqn:E; [lia|done].
  - iIntros (f1) "%Hf1". step. iApply (finish (CreateWritableHandle sz)); [lia|apply dec_no; [done|intros _; lia]|done].
Qed.
Lemma spec_write h b off l f : allowed (Write h b off l) -> own (Writable h b) ⊢ goal_of (Write h b off l) f.
Proof.
  intros Hl. simpl in Hl. iIntros "H". unfold run, CONSTBUFFER_GetWritableBuffer. step. iDestruct "H" as "[%Hb H]". set (b' := take off b ++ bytes_block l ++ drop (off + length l) b).
  assert (Hlb : length (bytes_block l) = length l) by (unfold bytes_block; by rewrite fmap_length).
  assert (Hb' : length b' = length b). { unfold b'. rewrite !app_length take_length drop_length Hlb. lia. }
  iApply (cwp_det _ _ _ _ (fun _ => True) _ (h ↦o CBuf (AStorage h 0) (Z.of_nat (length b)) (Copied b') 1)%I with "H").
  - intros f'. iIntros "H". unfold write_addr. simpl. destruct (decide (length (bytes_block l) = 0)) as [E|E].
    + iApply wpi_ret. replace b' with b; [by iFrame "H"|]. unfold b'. rewrite Hlb in E. destruct l; [|done]. simpl. by rewrite Nat.add_0_r take_drop.
    + iApply wpi_bind. iApply (wpi_get_obj with "H"). iIntros "H". simpl. rewrite Hlb decide_True //. iApply (wpi_set_obj with "H"). iIntros "H". by iFrame "H".
  - iIntros (x f1) "%Hf1 H". step. iApply (finish (Write h b off l)); [tauto|done|]. simpl. rewrite hold_one. unfold own. fold b'. rewrite Hb'. iFrame "H". iPureIntro. split; [|tauto]. intros E. rewrite E in Hb'. destruct b; [tauto|done].
Qed.
Lemma spec_writable_size h b f : own (Writable h b) ⊢ goal_of (GetWritableBufferSize h b) f.
Proof.
  iIntros "[%Hb H]". unfold run, CONSTBUFFER_GetWritableBufferSize. step. iApply (cwp_get_obj with "H"). iIntros (f1) "%Hf1 H". step. iApply (finish (GetWritableBufferSize h b)); [done|done|]. simpl. rewrite hold_one. by iFrame "H".
Qed.
Lemma spec_writable_dec h b f : own (Writable h b) ⊢ goal_of (WritableHandleDecRef h b) f.
Proof.
  iIntros "[%Hb H]". unfold run, CONSTBUFFER_WritableHandleDecRef. step.
  iApply (cwp_det _ _ _ _ (fun x => x = 0%Z) _ (h ↦o CBuf (AStorage h 0) (Z.of_nat (length b)) (Copied b) 0)%I with "H").
  - intros f'. iIntros "H". iApply (wpi_add_count with "H"). iIntros "H". by iFrame "H".
  - iIntros (x f1) "%Hf1 H". destruct Hf1 as [Hf1 ->]. step. iApply (cwp_free_obj with "H"). iIntros (f2) "%Hf2". step. iApply (finish (WritableHandleDecRef h b)); [lia|done|done].
Qed.
Lemma spec_seal h c f : own (Writable h (bytes_block c)) ⊢ goal_of (SealWritableHandle h c) f.
Proof.
  iIntros "[%Hb H]". unfold run, CONSTBUFFER_SealWritableHandle. step. iApply upd_cwp. destruct Hb as [Hb Hs]. unfold bytes_block in Hs. rewrite fmap_length in Hs.
  iMod (share_new h (inl (inl c), []) c with "[H] []") as "H".
  - split; [done|done].
  - done.
  - done.
  - unfold struct_of, addr_of, kind_of, content, size_of. simpl. rewrite decide_False; [|by intros ->]. unfold bytes_block. by rewrite fmap_length.
  - by rewrite /memory_of /= lift_emp.
  - iApply upd_intro. iApply (finish (SealWritableHandle h c)); [done|done|]. simpl. rewrite hold_one. iFrame "H".
Qed.

Lemma spec o f : allowed o -> hold (uses o) ⊢ goal_of o f.
Proof.
  intros Ha. destruct o; cbn [uses].
  - iIntros "_". iApply spec_malloc.
  - rewrite hold_one. apply spec_free.
  - iIntros "_". by iApply spec_create.
  - iIntros "_". by iApply spec_create_from_buffer.
  - by apply spec_move.
  - rewrite hold_one. by apply spec_custom.
  - by apply spec_view.
  - by apply spec_copy.
  - apply spec_inc.
  - apply spec_dec.
  - apply spec_read.
  - apply spec_same.
  - apply spec_size.
  - apply spec_to_buffer.
  - by apply spec_to_fixed.
  - by apply spec_from.
  - iIntros "_". by iApply spec_writable.
  - rewrite hold_one. by apply spec_write.
  - rewrite hold_one. apply spec_writable_size.
  - rewrite hold_one. apply spec_writable_dec.
  - rewrite hold_one. apply spec_seal.
Qed.
