(** Proofs for CbtProps. The calls that promise what those of constbuffer.c promise and do the same are proved there. *)
From Verif Require Import CslRules Rc CslPool.
From Verif Require Import Common Block BlockFacts CMem CMemFacts Prog MemDataModel MemDataSpec MemDataProofs ConstBufModel ConstBufSpec ConstBufProofs ConstBufProofs2 CbtModel CbtSpec.

Notation cgoal o f := (cwp CInv (crun o) f (answer clib own canswers o f)).
(** For the calls constbuffer.c has too, with this module's code. *)
Notation common o f := (cwp CInv (run_common o) f (answer lib own answers o f)).
Lemma cfinish o f r f' : f <= f' -> canswers o r f f' -> hold (cgives o r) ⊢ cwp CInv (Ret r) f' (answer clib own canswers o f).
Proof. intros Hf Ha. iIntros "H". iApply cwp_ret. iApply upd_intro. unfold answer. iSplit; [done|]. iFrame "H". Qed.

Lemma cwp_free_structs (Q : unit -> nat -> cP) stack f :
  lift ([∗ list] s ∈ stack, ∃ o, s ↦o o) -∗ (∀ f', ⌈f <= f'⌉ -∗ Q tt f') -∗ cwp CInv (free_structs stack) f Q.
Proof.
  revert f. induction stack as [|h stack IH]; iIntros (f) "H1 H2"; rewrite (frob_eq (free_structs _)); simpl.
  - iEval (rewrite lift_emp) in "H1". iApply cwp_ret. iApply upd_intro. by iApply "H2".
  - rewrite lift_sep lift_exist. iDestruct "H1" as "[(%o&Ho) H1]". iApply (cwp_free_obj with "Ho"). iIntros (f') "%Hf". iApply (IH with "H1"). iIntros (f'') "%Hf'". iApply "H2". iPureIntro. lia.
Qed.
Lemma cwp_DEC_REF_loop (Q : unit -> nat -> cP) lf vs : lf_wf lf -> forall h stack f,
  tok (h, (lf, vs)) -∗ lift ([∗ list] s ∈ stack, ∃ o, s ↦o o) -∗ (∀ f', ⌈f <= f'⌉ -∗ Q tt f') -∗ cwp CInv (DEC_REF_loop h stack) f Q.
Proof.
  intros Hw. induction vs as [|[[o off] n] vs IH]; iIntros (h stack f) "H1 H2 H3"; rewrite (frob_eq (DEC_REF_loop _ _)); simpl.
  - iApply (cwp_dec with "H1"). iSplit.
    + iIntros (x f') "%Hx". rewrite decide_False; [|tauto]. iApply (cwp_free_structs with "H2"). iIntros (f'') "%Hf". iApply "H3". iPureIntro. lia.
    + iIntros (f') "%Hf H1 H4 H5". cbn [decide]. unfold holds. simpl. rewrite toks_empty. iClear "H5". iApply (cwp_get_obj with "H1"). iIntros (f1) "%Hf1 H1". simpl. unfold kind_of, memory_of, addr_of. simpl.
      iAssert (lift ([∗ list] s ∈ h :: stack, ∃ o, s ↦o o))%I with "[H1 H2]" as "H1". { simpl. rewrite lift_sep. iFrame "H2". rewrite lift_exist. by iExists _. }
      destruct lf as [[l|[[[p l]|] m]]|[[[p l] [o|]] m]]; simpl.
      * iEval (rewrite lift_emp) in "H4". iApply (cwp_free_structs _ (h :: stack) with "H1"). iIntros (f2) "%Hf2". iApply "H3". iPureIntro. lia.
      * iApply (cwp_free with "H4"). iIntros (f2) "%Hf2". iApply (cwp_free_structs _ (h :: stack) with "H1"). iIntros (f3) "%Hf3". iApply "H3". iPureIntro. lia.
      * iEval (rewrite lift_emp) in "H4". iApply cwp_none; [done|]. iIntros (f2) "%Hf2". iApply (cwp_free_structs _ (h :: stack) with "H1"). iIntros (f3) "%Hf3". iApply "H3". iPureIntro. lia.
      * iApply (cwp_free with "H4"). iIntros (f2) "%Hf2". iApply (cwp_free_structs _ (h :: stack) with "H1"). iIntros (f3) "%Hf3". iApply "H3". iPureIntro. lia.
      * iApply (cwp_free with "H4"). iIntros (f2) "%Hf2". iApply (cwp_free_structs _ (h :: stack) with "H1"). iIntros (f3) "%Hf3". iApply "H3". iPureIntro. lia.
  - iApply (cwp_dec with "H1"). iSplit.
    + iIntros (x f') "%Hx". rewrite decide_False; [|tauto]. iApply (cwp_free_structs with "H2"). iIntros (f'') "%Hf". iApply "H3". iPureIntro. lia.
    + iIntros (f') "%Hf H1 H4 H5". cbn [decide]. unfold holds, memory_of. simpl. rewrite toks_tok. iEval (rewrite lift_emp) in "H4". iApply (cwp_get_obj with "H1"). iIntros (f1) "%Hf1 H1". simpl.
      iApply (IH with "H5 [H1 H2]"); [|iIntros (f2) "%Hf2"; iApply "H3"; iPureIntro; lia]. simpl. rewrite lift_sep. iFrame "H2". rewrite lift_exist. by iExists _.
Qed.
Lemma cwp_create_internal (Q : ptr -> nat -> cP) src sz c P f : is_u32 sz -> length c = Z.to_nat sz -> (sz <> 0%Z -> is_null src = false) ->
  (forall (k : block -> code ptr) f1, P -∗ (∀ f', ⌈f1 <= f'⌉ -∗ P -∗ cwp CInv (k (bytes_block c)) f' Q) -∗ cwp CInv (Act (read_source src (Z.to_nat sz)) k) f1 Q) ->
  P -∗ (∀ r f', ⌈f <= f' /\ made r f f'⌉ -∗ P -∗ hold (new_ref r c []) -∗ Q r f') -∗ cwp CInv (CONSTBUFFER_THANDLE_Create_Internal src sz) f Q.
Proof.
  intros Hu Hl Hsrc Hr. iIntros "HP HQ". unfold CONSTBUFFER_THANDLE_Create_Internal, act. rewrite pbind_act. iApply cwp_new_obj. iSplit.
  - iIntros (h f1) "%Hf1 H1". rewrite pbind_ret. unfold is_u32 in Hu. destruct (decide (sz = 0)%Z) as [->|Hne].
    + destruct c; [|done]. rewrite pbind_act. iApply (cwp_set_obj with "H1"). iIntros (f2) "%Hf2 H1". rewrite pbind_ret. iApply cwp_ret.
      iMod (share_new h (inl (inl []), []) with "H1 []") as "H1"; [by split|done..|by rewrite /memory_of /= lift_emp|]. iApply upd_intro. iApply ("HQ" with "[] HP [H1]"); [iPureIntro; split; [lia|done]|]. simpl. rewrite hold_one. iFrame "H1".
    + rewrite pbind_act. rewrite (Hsrc Hne). iApply (Hr with "HP"). iIntros (f2) "%Hf2 HP". rewrite pbind_ret. rewrite pbind_act. iApply (cwp_set_obj with "H1"). iIntros (f3) "%Hf3 H1". rewrite pbind_ret. iApply cwp_ret.
      iMod (share_new h (inl (inl c), []) with "[H1] []") as "H1"; [|done..| | |].
      * split; [simpl; lia|done].
      * unfold struct_of, addr_of, kind_of, content, size_of. simpl. rewrite decide_False; [|intros ->; simpl in Hl; lia]. rewrite Hl Z2Nat.id; [done|lia].
      * by rewrite /memory_of /= lift_emp.
      * iApply upd_intro. iApply ("HQ" with "[] HP [H1]"); [iPureIntro; split; [lia|done]|]. simpl. rewrite hold_one. iFrame "H1".
  - iIntros (f1) "%Hf1". rewrite pbind_ret. iApply cwp_ret. iApply upd_intro. iApply ("HQ" with "[] HP []"); [|iApply hold_nil]. iPureIntro. split; [lia|intros _; lia].
Qed.
Lemma cwp_cbt_create (Q : ptr -> nat -> cP) src sz c P f : is_u32 sz -> length c = Z.to_nat sz -> (sz <> 0%Z -> is_null src = false) ->
  (forall (k : block -> code ptr) f1, P -∗ (∀ f', ⌈f1 <= f'⌉ -∗ P -∗ cwp CInv (k (bytes_block c)) f' Q) -∗ cwp CInv (Act (read_source src (Z.to_nat sz)) k) f1 Q) ->
  P -∗ (∀ r f', ⌈f <= f' /\ made r f f'⌉ -∗ P -∗ hold (new_ref r c []) -∗ Q r f') -∗ cwp CInv (CONSTBUFFER_THANDLE_Create src sz) f Q.
Proof.
  intros Hu Hl Hn Hr. unfold CONSTBUFFER_THANDLE_Create. rewrite decide_False; [|intros [H1 H2]; specialize (Hn H2); congruence]. by apply cwp_create_internal.
Qed.
Lemma cwp_DEC_REF (Q : unit -> nat -> cP) h c f : own (Ref h c) -∗ (∀ f', ⌈f <= f'⌉ -∗ Q tt f') -∗ cwp CInv (DEC_REF (Some h)) f Q.
Proof.
  iIntros "(%v&%Hv&H) HQ". destruct v as [lf vs]. iApply (cwp_DEC_REF_loop with "H [] HQ"); [by eapply wf_leaf, Hv|by rewrite lift_emp].
Qed.
Lemma cwp_INC_REF (Q : unit -> nat -> cP) h c f : own (Ref h c) -∗ (∀ f', ⌈f <= f'⌉ -∗ own (Ref h c) -∗ own (Ref h c) -∗ Q tt f') -∗ cwp CInv (INC_REF (Some h)) f Q.
Proof.
  iIntros "(%v&%Hv&H) HQ". unfold INC_REF. step. iApply (cwp_inc with "H"). iIntros (x f1) "%Hf1 H1 H2". step. iApply cwp_ret. iApply upd_intro. iApply ("HQ" with "[//] [H1] [H2]"); iExists v; by iFrame.
Qed.

Lemma not_null h v off : wf v -> 0 < length (content v) -> is_null (SAddr (addr_add (addr_of h v) off)) = false.
Proof.
  intros Hw Hl. destruct (bottom h v Hw) as (hb&off'&_&Hlw&Ha&Hb&_). rewrite Ha addr_add_add. destruct (v.1) as [[l|[[[p l]|] m]]|[[[p l] [o|]] m]]; simpl in *; try done; try lia. case_decide; [|done]. subst l. simpl in Hb. lia.
Qed.
Lemma cbt_create src sz f : allowed (Create src sz) -> ⊢ common (Create src sz) f.
Proof.
  intros [Hu Hs]. unfold run_common. destruct src as [l|].
  - sub. iApply (cwp_cbt_create _ _ _ (take (Z.to_nat sz) l) emp%I with "[//]"); [done|rewrite take_length; lia|done| |].
    + intros k f1. apply read_smem; [lia|done].
    + iIntros (r f') "%Hf _ H". iApply (finish (Create (Some l) sz)); [tauto| |done]. apply dec_no; [by intros [? _]|tauto].
  - destruct (decide (sz <> 0)%Z) as [Hz|Hz].
    + unfold CONSTBUFFER_THANDLE_Create. rewrite decide_True //. step. iApply (finish (Create None sz)); [done|by apply dec_yes|done].
    + assert (sz = 0%Z) as -> by lia. sub. iApply (cwp_cbt_create _ _ _ [] emp%I with "[//]"); [done|done|done| |].
      * intros k f1. iIntros "_ H". iApply cwp_none; [done|]. iIntros (f') "%Hf". by iApply "H".
      * iIntros (r f') "%Hf _ H". iApply (finish (Create None 0)); [tauto| |]. { apply dec_no; [by intros [_ ?]|tauto]. } done.
Qed.
Lemma cbt_create_from_buffer b f : ⊢ common (CreateFromBuffer b) f.
Proof.
  unfold run_common, CONSTBUFFER_THANDLE_CreateFromBuffer. destruct b as [l|].
  - assert (u32 (Z.of_nat (length l)) <= Z.of_nat (length l))%Z as Hle. { unfold u32, UINT32_MOD. apply Z.mod_le; lia. }
    sub. iApply (cwp_create_internal _ _ _ (take (Z.to_nat (u32 (size_of l))) l) emp%I with "[//]"); [apply u32_range|unfold size_of; rewrite take_length; lia|done| |].
    + intros k f1. apply read_smem; [lia|done].
    + iIntros (r f') "%Hf _ H". iApply (finish (CreateFromBuffer (Some l))); [tauto| |done]. simpl. tauto.
  - step. by iApply (finish (CreateFromBuffer None)).
Qed.
Lemma cbt_copy r offset sz f : allowed (CreateFromOffsetAndSizeWithCopy r offset sz) -> hold (hold_ref r) ⊢ common (CreateFromOffsetAndSizeWithCopy r offset sz) f.
Proof.
  intros [Ho Hz]. iIntros "H". unfold run_common, CONSTBUFFER_THANDLE_CreateFromOffsetAndSizeWithCopy. destruct r as [[h c]|]; simpl; [|step; by iApply (finish (CreateFromOffsetAndSizeWithCopy None offset sz))].
  iEval (rewrite hold_cons) in "H". iDestruct "H" as "[(%v&%Hv&H) _]". destruct Hv as [Hw Hc]. pose proof (size_u32 v Hw) as Hsz. rewrite Hc in Hsz.
  step. iApply (cwp_look with "H"). iIntros (n f1) "%Hf1 H". step. unfold struct_of. simpl. rewrite Hc. fold (slice_fails (size_of c) offset sz). rewrite slice_fails_spec //. case_bool_decide as Hb.
  - step. iApply (finish (CreateFromOffsetAndSizeWithCopy (Some (h, c)) offset sz)); [done|by apply dec_yes|]. simpl. rewrite hold_cons. iSplitL; [|done]. iExists v. by iFrame "H".
  - assert (Hsl : Z.to_nat offset + Z.to_nat sz <= length c) by (unfold size_of, is_u32 in *; lia). sub.
    iApply (cwp_cbt_create _ _ _ (slice (Z.to_nat offset) (Z.to_nat sz) c) (tok (h, v)) with "H"); [done|unfold slice; rewrite take_length drop_length; lia|intros Hs0; apply (not_null h v); [done|rewrite Hc; unfold size_of, is_u32 in *; lia]| |].
    + intros k f2. iIntros "H1 H2". iApply (cwp_read_addr with "H1"); [done|done|done|]. iIntros (f3) "%Hf3 H". by iApply ("H2" with "[//] H").
    + iIntros (r f') "%Hf H1 H2". iApply (finish (CreateFromOffsetAndSizeWithCopy (Some (h, c)) offset sz)); [lia| |].
      { apply dec_no; [done|]. intros ?. destruct Hf as [? Hm]. specialize (Hm H). lia. }
      simpl. rewrite hold_cons. iFrame "H2". iExists v. by iFrame "H1".
Qed.
Lemma cbt_dec r f : hold (hold_ref r) ⊢ common (DecRef r) f.
Proof.
  iIntros "H". unfold run_common. destruct r as [[h c]|]; simpl; [|unfold DEC_REF; step; by iApply (finish (DecRef None))].
  rewrite hold_one. sub. iApply (cwp_DEC_REF with "H"). iIntros (f1) "%Hf1". by iApply (finish (DecRef (Some (h, c)))).
Qed.
Lemma cbt_to_fixed r d n out f : allowed (ToFixedSizeBuffer r d n out) -> hold (hold_ref r ++ hold_mem d) ⊢ common (ToFixedSizeBuffer r d n out) f.
Proof.
  intros [Hu Hd]. iIntros "H". unfold run_common, CONSTBUFFER_THANDLE_to_fixed_size_buffer. destruct r as [[h c]|]; simpl; [|step; by iApply (finish (ToFixedSizeBuffer None d n out))].
  destruct d as [[p l]|]; simpl; [|step; by iApply (finish (ToFixedSizeBuffer (Some (h, c)) None n out))].
  destruct out; [|step; by iApply (finish (ToFixedSizeBuffer (Some (h, c)) (Some (p, l)) n false))].
  rewrite hold_cons hold_one. iDestruct "H" as "[H H2]". iDestruct "H" as (v) "[%Hv H]". destruct Hv as [Hw Hc]. unfold CONSTBUFFER_THANDLE_get_serialization_size. step. iApply (cwp_look with "H"). iIntros (m f1) "%Hf1 H". step.
  change (size (struct_of h v m)) with (size_of (content v)). rewrite Hc.
  assert (0 <= size_of c)%Z by (unfold size_of; lia). unfold CONSTBUFFER_VERSION_SIZE at 1, CONSTBUFFER_SIZE_SIZE at 1. rewrite Z.gtb_ltb.
  destruct (Z.ltb_spec (UINT32_MAX - 1 - 4) (size_of c)) as [E|E]; step.
  - iApply (finish (ToFixedSizeBuffer (Some (h, c)) (Some (p, l)) n true)); [done| |].
    + apply dec_no; [lia|done].
    + simpl. rewrite hold_cons hold_one. iFrame "H2". iExists v. by iFrame "H".
  - rewrite !add_small; [|lia..]. destruct (decide (5 + size_of c = 0)%Z); [lia|]. rewrite Z.gtb_ltb. destruct (Z.ltb_spec n (5 + size_of c)) as [E2|E2]; step.
    + iApply (finish (ToFixedSizeBuffer (Some (h, c)) (Some (p, l)) n true)); [done| |].
      * apply dec_yes; [lia|]. rewrite size_serialized. split; [done|]. by rewrite decide_False; [|lia].
      * simpl. rewrite hold_cons hold_one. iFrame "H2". iExists v. by iFrame "H".
    + iApply (cwp_look with "H"). iIntros (m' f2) "%Hf2 H". step. sub. sub. iApply (cwp_serialize with "H H2"); [done|done|unfold bytes_block; rewrite fmap_length; unfold size_of in *; lia|]. iIntros (f3) "%Hf3 H1 H2". iApply cwp_ret. iApply upd_intro.
      iApply (finish (ToFixedSizeBuffer (Some (h, c)) (Some (p, l)) n true)); [lia| |].
      * apply dec_yes; [lia|]. rewrite size_serialized. split; [done|]. by rewrite decide_True; [|lia].
      * simpl. rewrite hold_cons hold_one. iSplitL "H1"; [iExists v; by iFrame "H1"|]. iApply (own_tail (serialized c) (5 + length c)). iFrame "H2".
Qed.
(** Writable handles are counted without other threads. *)
Lemma cwp_count_own (Q : Z -> nat -> cP) h o d f : lift (h ↦o o) -∗ (∀ f', ⌈f <= f'⌉ -∗ lift (h ↦o CBuf (buffer o) (size o) (buffer_type o) (count o + d)%Z) -∗ Q (count o + d)%Z f') -∗ cwp CInv (act (add_count d h)) f Q.
Proof.
  iIntros "H HQ". unfold act. iApply (cwp_det _ _ _ _ (fun x => x = (count o + d)%Z) _ (h ↦o CBuf (buffer o) (size o) (buffer_type o) (count o + d)%Z)%I with "H").
  - intros f'. iIntros "H". iApply (wpi_add_count with "H"). iIntros "H". by iFrame "H".
  - iIntros (x f1) "%Hf1 H". destruct Hf1 as [Hf1 ->]. iApply cwp_ret. iApply upd_intro. by iApply ("HQ" with "[//] H").
Qed.
Lemma cbt_writable sz f : allowed (CreateWritableHandle sz) -> ⊢ common (CreateWritableHandle sz) f.
Proof.
  intros Hu. unfold run_common, CONSTBUFFER_THANDLE_CreateWritableHandle. simpl in Hu. unfold is_u32 in Hu. destruct (decide (sz = 0%Z)) as [->|Hn].
  { step. iApply (finish (CreateWritableHandle 0)); [done|by apply dec_yes|done]. }
  sub. unfold act at 1. rewrite pbind_act. iApply cwp_new_obj. iSplit.
  - iIntros (h f1) "%Hf1 H". rewrite pbind_ret. unfold act at 1. rewrite pbind_act. iApply (cwp_set_obj with "H"). iIntros (f2) "%Hf2 H". rewrite pbind_ret. unfold INC_REF, WRITABLE_DEC_REF. do 2 sub.
    iApply (cwp_count_own with "H"). iIntros (f3) "%Hf3 H". iApply cwp_ret. iApply upd_intro. do 2 sub. iApply (cwp_count_own with "H"). iIntros (f4) "%Hf4 H". cbn [buffer size buffer_type count]. iApply cwp_ret. iApply upd_intro. iApply cwp_ret. iApply upd_intro.
    iApply (finish (CreateWritableHandle sz)); [lia|apply dec_no; [done|intros ?; done]|].
    simpl. rewrite hold_one. unfold own, fresh_block. rewrite replicate_length Z2Nat.id; [|lia]. iFrame "H". iPureIntro. split; [|lia]. destruct (Z.to_nat sz) eqn:E; [lia|done].
  - iIntros (f1) "%Hf1". rewrite pbind_ret. iApply cwp_ret. iApply upd_intro. iApply (finish (CreateWritableHandle sz)); [lia|apply dec_no; [done|intros _; lia]|done].
Qed.

Lemma cbt_common o f : in_common o = true -> allowed o -> hold (uses o) ⊢ common o f.
Proof.
  intros Hin Ha. destruct o; try discriminate Hin; cbn [uses].
  - iIntros "_". iApply spec_malloc.
  - rewrite hold_one. apply (spec_free p l).
  - iIntros "_". by iApply cbt_create.
  - iIntros "_". by iApply cbt_create_from_buffer.
  - exact (spec_move _ _ f Ha).
  - rewrite hold_one. exact (spec_custom _ _ _ _ _ f Ha).
  - exact (spec_view _ _ _ f Ha).
  - exact (cbt_copy _ _ _ f Ha).
  - exact (spec_inc _ f).
  - exact (cbt_dec _ f).
  - exact (spec_read _ f).
  - exact (spec_same _ _ f).
  - exact (spec_size _ f).
  - exact (spec_to_buffer _ _ f).
  - exact (cbt_to_fixed _ _ _ _ f Ha).
  - iIntros "_". by iApply cbt_writable.
  - rewrite hold_one. exact (spec_write _ _ _ _ f Ha).
  - rewrite hold_one. exact (spec_writable_size _ _ f).
  - rewrite hold_one. exact (spec_writable_dec _ _ f).
Qed.

Lemma cbt_from src n consumed destination f : callowed (FromBufferTo src n consumed destination) -> hold (hold_mem src ++ hold_destination destination) ⊢ cgoal (FromBufferTo src n consumed destination) f.
Proof.
  intros [Hu Hs]. iIntros "H". unfold crun, CONSTBUFFER_THANDLE_from_buffer. destruct src as [[p l]|]; simpl; [|step; by iApply (cfinish (FromBufferTo None n consumed destination))].
  destruct Hs as [Hn Hb]. destruct consumed; [|step; by iApply (cfinish (FromBufferTo (Some (p, l)) n false destination))].
  destruct destination as [old|]; [|step; by iApply (cfinish (FromBufferTo (Some (p, l)) n true None))]. set (o := FromBufferTo (Some (p, l)) n true (Some old)).
  destruct (decide (n = 0%Z)) as [->|Hne].
  { step. iApply (cfinish (FromBufferTo (Some (p, l)) 0 true (Some old))); [done| |done]. by apply dec_yes. }
  unfold is_u32 in Hu. assert (Hl0 : 1 <= length l) by lia. rewrite hold_cons. iDestruct "H" as "[H Hold]". unfold own at 1.
  assert (Hbn : all_bytes (take (Z.to_nat n) l)) by by apply all_bytes_take.
  assert (Hln : length (take (Z.to_nat n) l) = Z.to_nat n) by (rewrite take_length; lia).
  unfold CONSTBUFFER_VERSION_OFFSET, CONSTBUFFER_VERSION_V1, CONSTBUFFER_SIZE_OFFSET, CONSTBUFFER_CONTENT_OFFSET. step.
  destruct l as [|x0 l']; [simpl in Hl0; lia|]. set (l := x0 :: l') in *.
  iApply (cwp_on_block with "H").
  { apply (read_uint8_ok 0 [x0]); [done| |]. - unfold all_bytes in Hb. rewrite Forall_cons in Hb. repeat constructor; apply Hb. - intros i y Hi. apply block_has. by destruct i as [|[|i]]. }
  iIntros (f1) "%Hf1 H". step. replace (be_value [x0]) with x0 by (simpl; lia). assert (Hx0 : nth 0 (take (Z.to_nat n) l) 0%Z = x0). { replace (Z.to_nat n) with (S (Z.to_nat n - 1)) by lia. done. }
  destruct (decide (x0 <> 1%Z)) as [Hv|Hv].
  { step. iApply (cfinish o); [done| |unfold o; simpl; rewrite hold_cons; iFrame "H Hold"]. apply dec_no; [done|]. intros c Hc. apply parsed_iff in Hc; [|done]. rewrite Hx0 in Hc. tauto. }
  assert (x0 = 1%Z) as Hx1 by lia. unfold CONSTBUFFER_VERSION_SIZE at 1, CONSTBUFFER_SIZE_SIZE at 1. destruct (Z.ltb_spec n (1 + 4)) as [Hn5|Hn5].
  { step. iApply (cfinish o); [done| |unfold o; simpl; rewrite hold_cons; iFrame "H Hold"]. apply dec_no; [done|]. intros c Hc. apply parsed_iff in Hc; [|done]. rewrite Hln in Hc. lia. }
  assert (Hs4 : slice 1 4 (take (Z.to_nat n) l) = slice 1 4 l). { unfold slice. rewrite skipn_firstn_comm take_take. f_equal. lia. }
  assert (Hb4 : all_bytes (slice 1 4 l)) by (unfold slice; apply all_bytes_take, all_bytes_drop, Hb).
  assert (Hl4 : length (slice 1 4 l) = 4) by (unfold slice; rewrite take_length drop_length; lia).
  step. iApply (cwp_on_block with "H").
  { apply (read_uint32_ok 1 (slice 1 4 l)); [done|done|]. intros i y Hi. apply block_has. unfold slice in Hi. rewrite lookup_take_Some lookup_drop in Hi. tauto. }
  iIntros (f2) "%Hf2 H". step. pose proof (be_value_bound _ Hb4) as Hbd. rewrite Hl4 in Hbd. change (256 ^ Z.of_nat 4)%Z with 4294967296%Z in Hbd. set (v := be_value (slice 1 4 l)) in *.
  unfold CONSTBUFFER_VERSION_SIZE at 1, CONSTBUFFER_SIZE_SIZE at 1. rewrite u32_small; [|unfold is_u32; lia]. destruct (Z.ltb_spec (n - (1 + 4)) v) as [Hv5|Hv5].
  { step. iApply (cfinish o); [lia| |unfold o; simpl; rewrite hold_cons; iFrame "H Hold"]. apply dec_no; [done|]. intros c Hc. apply parsed_iff in Hc; [|done]. rewrite Hln Hs4 in Hc. fold v in Hc. lia. }
  assert (Hp : parsed (take (Z.to_nat n) l) (slice 5 (Z.to_nat v) l)).
  { apply parsed_iff; [done|]. rewrite Hln Hs4 Hx0. fold v. split_and!; [lia|done|lia|]. unfold slice. rewrite skipn_firstn_comm take_take. f_equal. lia. }
  sub. sub. iApply (cwp_cbt_create _ _ _ (slice 5 (Z.to_nat v) l) (lift (p ↦b bytes_block l)) with "H"); [unfold is_u32, UINT32_MAX; lia|unfold slice; rewrite take_length drop_length; lia|done| |].
  - intros k f3. iIntros "H1 H2". iApply (cwp_det _ _ _ _ (fun x => x = bytes_block (slice 5 (Z.to_nat v) l)) _ (p ↦b bytes_block l)%I with "H1").
    + intros f'. iIntros "H". cbn [read_source]. unfold read_addr. destruct (decide (Z.to_nat v = 0)) as [E|E].
      * iApply wpi_ret. iFrame "H". iPureIntro. split; [|done]. unfold slice. by rewrite E.
      * iApply (wpi_load with "H"); [rewrite bytes_block_length; lia|]. iIntros "H". iFrame "H". iPureIntro. split; [|done]. apply bytes_block_sub.
    + iIntros (x f') "%Hf H1". destruct Hf as [Hf ->]. by iApply ("H2" with "[//] H1").
  - assert (Hlen : length (slice 5 (Z.to_nat v) l) = Z.to_nat v) by (unfold slice; rewrite take_length drop_length; lia).
    iIntros (r f') "%Hf H1 H2". destruct r as [h|].
    + unfold new_ref. rewrite hold_one. sub. iApply (cwp_INC_REF with "H2"). iIntros (f3) "%Hf3 H2 H3". sub.
      iApply (cwp_wand _ _ _ (fun _ f4 => ⌈f3 <= f4⌉)%I with "[Hold]").
      { destruct old as [[ho co]|]; cbn [hold_destination hold_ref fmap option_fmap option_map fst]; [|unfold DEC_REF; iApply cwp_ret; iApply upd_intro; done]. rewrite hold_one. iApply (cwp_DEC_REF with "Hold"). iIntros (f4) "%Hf4". done. }
      iIntros (x f4) "_ %Hf4". sub. iApply (cwp_DEC_REF with "H3"). iIntros (f5) "%Hf5". iApply cwp_ret. iApply upd_intro. iApply (cfinish o); [lia| |].
      * apply dec_no; [done|]. cbn [fst snd]. eexists. split; [exact Hp|]. rewrite size_serialized /size_of Hlen. rewrite Z2Nat.id; [|lia]. apply add_small; lia.
      * unfold o. cbn [cgives fst snd]. rewrite hold_cons hold_one. iFrame "H1". rewrite add_small; [|lia..]. replace (Z.to_nat (5 + v) - 5) with (Z.to_nat v) by lia. iFrame "H2".
    + iApply cwp_ret. iApply upd_intro. iApply (cfinish o); [lia| |].
      * apply dec_no; [done|]. cbn [fst snd]. split; [|by eexists]. destruct Hf as [Hf1' Hm]. specialize (Hm eq_refl). lia.
      * unfold o. simpl. rewrite hold_cons. iFrame "H1 Hold".
Qed.

Lemma cbt_seal w f : hold (cuses (Seal w)) ⊢ cgoal (Seal w) f.
Proof.
  iIntros "H". unfold crun, CONSTBUFFER_THANDLE_SealWritableHandle. destruct w as [[h c]|]; simpl; [|step; by iApply (cfinish (Seal None))].
  rewrite hold_one. iDestruct "H" as "[%Hb H]". destruct Hb as [Hb Hs]. rewrite bytes_block_length in Hs |- *. step. iApply (cwp_get_obj with "H"). iIntros (f1) "%Hf1 H". step. cbn [size]. sub. sub.
  iApply (cwp_cbt_create _ _ _ c (lift (h ↦o CBuf (AStorage h 0) (Z.of_nat (length c)) (Copied (bytes_block c)) 1)) with "H"); [unfold is_u32; lia|by rewrite Nat2Z.id|done| |].
  - intros k f2. iIntros "H1 H2". rewrite Nat2Z.id. iApply (cwp_det _ _ _ _ (fun x => x = bytes_block c) _ (h ↦o CBuf (AStorage h 0) (Z.of_nat (length c)) (Copied (bytes_block c)) 1)%I with "H1").
    + intros f'. iIntros "H". cbn [read_source]. unfold read_addr. destruct (decide (length c = 0)) as [E|E].
      * destruct c; [|done]. iApply wpi_ret. by iFrame "H".
      * iApply wpi_bind. iApply (wpi_get_obj with "H"). iIntros "H". cbn [buffer_type]. rewrite decide_True; [|by rewrite bytes_block_length]. iApply wpi_ret. iFrame "H". iPureIntro. split; [|done].
        rewrite drop_0. apply firstn_all2. by rewrite bytes_block_length.
    + iIntros (x f') "%Hf H1". destruct Hf as [Hf ->]. by iApply ("H2" with "[//] H1").
  - iIntros (r f2) "%Hf2 H1 H2". destruct r as [h'|].
    + unfold new_ref. rewrite hold_one. sub. iApply (cwp_INC_REF with "H2"). iIntros (f3) "%Hf3 H2 H3". sub. iApply (cwp_DEC_REF with "H3"). iIntros (f4) "%Hf4". iApply cwp_ret. iApply upd_intro. iApply (cfinish (Seal (Some (h, c)))); [lia|intros ?; done|].
      simpl. rewrite hold_cons hold_one. iFrame "H2". unfold own. rewrite bytes_block_length. iFrame "H1". iPureIntro. done.
    + iApply cwp_ret. iApply upd_intro. iApply (cfinish (Seal (Some (h, c)))); [lia|intros _; destruct Hf2 as [? Hm]; specialize (Hm eq_refl); lia|].
      simpl. rewrite hold_one. unfold own. rewrite bytes_block_length. iFrame "H1". iPureIntro. done.
Qed.
Lemma cspec o f : callowed o -> hold (cuses o) ⊢ cgoal o f.
Proof.
  intros Ha. destruct o as [o| | |w|w]; cbn [cuses].
  - destruct Ha as [Hin Ha]. exact (cbt_common o f Hin Ha).
  - by apply cbt_from.
  - apply cbt_seal.
  - iIntros "H". unfold crun, CONSTBUFFER_THANDLE_GetWritableBuffer. destruct w as [[h b]|]; simpl; step; [by iApply (cfinish (WritableBuffer (Some (h, b))))|by iApply (cfinish (WritableBuffer None))].
  - iIntros "H". unfold crun, CONSTBUFFER_THANDLE_GetWritableBufferSize. destruct w as [[h b]|]; simpl; step; [|by iApply (cfinish (WritableSize None))].
    rewrite hold_one. iDestruct "H" as "[%Hb H]". iApply (cwp_get_obj with "H"). iIntros (f1) "%Hf1 H". step. iApply (cfinish (WritableSize (Some (h, b)))); [done|done|]. simpl. rewrite hold_one. by iFrame "H".
Qed.
