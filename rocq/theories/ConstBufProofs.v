(** Proofs for ConstBufProps. *)
From Verif Require Import CslRules Rc CslPool.
From Verif Require Import Common Block BlockFacts CMem Prog MemDataModel MemDataSpec MemDataProofs ConstBufModel ConstBufSpec.

(** What a reference tells about a buffer: at the bottom, memory that was copied (its bytes), moved (the block, the size), or given with a custom free
    function (its context, the offset of the source in it, the size); and the views on it, the outermost first (the original, offset, size). *)
Notation leaf := (bytes + (option (positive * bytes) * nat) + (positive * bytes * option nat * nat))%type.
Notation val := (leaf * list (positive * nat * nat))%type.
Definition val_eq_def : EqDecision val := _.
Global Instance val_eq : EqDecision val.
Proof. exact val_eq_def. Qed.
Global Instance val_countable : Countable val.
Proof. apply (@inj_countable' val val_eq_def _ val val_eq (fun x => x) (fun x => x)). done. Qed.
Notation cP := (cPropI cbuf (positive * val)).

Definition lf_content (lf : leaf) : bytes :=
  match lf with
  | inl (inl l) => l
  | inl (inr (Some (_, l), n)) => take n l
  | inl (inr (None, _)) => []
  | inr (_, l, Some off, n) => take n (drop off l)
  | inr (_, l, None, n) => []
  end.
Definition lf_addr (h : positive) (lf : leaf) : addr :=
  match lf with
  | inl (inl l) => if decide (l = []) then ANull else AStorage h 0
  | inl (inr (Some (p, _), _)) => ABlock p 0
  | inl (inr (None, _)) => ANull
  | inr (p, _, Some off, _) => ABlock p off
  | inr (_, _, None, _) => ANull
  end.
Definition lf_kind (lf : leaf) : kind :=
  match lf with
  | inl (inl l) => Copied (bytes_block l)
  | inl (inr _) => Moved
  | inr (p, _, _, _) => WithCustomFree p
  end.
Definition lf_mem (lf : leaf) : hPropI cbuf :=
  match lf with
  | inl (inr (Some (p, l), _)) => p ↦b bytes_block l
  | inr (p, l, _, _) => p ↦b bytes_block l
  | _ => emp
  end%I.
Definition lf_wf (lf : leaf) : Prop :=
  (Z.of_nat (length (lf_content lf)) <= UINT32_MAX)%Z /\
  match lf with
  | inl (inr (Some (_, l), n)) => n <= length l
  | inl (inr (None, n)) => n = 0
  | inr (_, l, Some off, n) => off + n <= length l
  | inr (_, l, None, n) => n = 0
  | _ => True
  end.
Fixpoint content_v (lf : leaf) (vs : list (positive * nat * nat)) : bytes :=
  match vs with [] => lf_content lf | (_, off, n) :: vs' => take n (drop off (content_v lf vs')) end.
Fixpoint addr_v (h : positive) (lf : leaf) (vs : list (positive * nat * nat)) : addr :=
  match vs with [] => lf_addr h lf | (o, off, n) :: vs' => addr_add (addr_v o lf vs') off end.
Fixpoint wf_v (lf : leaf) (vs : list (positive * nat * nat)) : Prop :=
  match vs with [] => lf_wf lf | (o, off, n) :: vs' => off + n <= length (content_v lf vs') /\ wf_v lf vs' end.
Definition content (v : val) : bytes := content_v v.1 v.2.
Definition addr_of (h : positive) (v : val) : addr := addr_v h v.1 v.2.
Definition wf (v : val) : Prop := wf_v v.1 v.2.
Definition kind_of (v : val) : kind := match v.2 with [] => lf_kind v.1 | (o, _, _) :: _ => FromOffsetAndSize o end.
Definition struct_of (h : positive) (v : val) (n : Z) : cbuf := CBuf (addr_of h v) (size_of (content v)) (kind_of v) n.
Definition memory_of (v : val) : hPropI cbuf := match v.2 with [] => lf_mem v.1 | _ => emp%I end.
Definition repr (h : positive) (v : val) (n : nat) : hPropI cbuf := (h ↦o struct_of h v (Z.of_nat n) ∗ memory_of v)%I.
Definition holds (v : val) : gmultiset (positive * val) := match v.2 with [] => ∅ | (o, _, _) :: vs => {[+ (o, (v.1, vs)) +]} end.
Notation CInv := (RInv repr holds).

Lemma repr_excl h v n v' n' : repr h v n ∗ repr h v' n' ⊢ False.
Proof. iIntros "[[H1 _] [H2 _]]". by iDestruct (obj_ne with "H1 H2") as %?. Qed.

Lemma content_small v : wf v -> (size_of (content v) <= UINT32_MAX)%Z.
Proof.
  destruct v as [lf vs]. unfold wf, content, size_of. simpl. induction vs as [|[[o off] n] vs IH]; simpl; [by intros [? _]|]. intros [? Hw]. specialize (IH Hw). rewrite take_length drop_length. lia.
Qed.
Lemma addr_add_add a m n : addr_add (addr_add a m) n = addr_add a (m + n).
Proof. destruct a; simpl; f_equal; lia. Qed.
Lemma addr_add_0 a : addr_add a 0 = a.
Proof. destruct a; simpl; f_equal; lia. Qed.
(** The bottom of a buffer. *)
Lemma bottom h v : wf v -> exists hb off, leads holds (h, v) (hb, (v.1, [])) /\ lf_wf v.1 /\ addr_of h v = addr_add (lf_addr hb v.1) off /\ off + length (content v) <= length (lf_content v.1) /\
  content v = take (length (content v)) (drop off (lf_content v.1)).
Proof.
  destruct v as [lf vs]. unfold wf, addr_of, content. simpl. revert h. induction vs as [|[[o off] n] vs IH]; simpl; intros h.
  - intros Hw. exists h, 0. split; [constructor|]. split; [done|]. split; [by rewrite addr_add_0|]. split; [lia|]. by rewrite drop_0 firstn_all.
  - intros [Hn Hw]. destruct (IH o Hw) as (hb&off'&Hl&Hlw&Ha&Hc&E). exists hb, (off' + off). split; [|split_and!].
    + clear -Hl. assert (leads holds (h, (lf, (o, off, n) :: vs)) (o, (lf, vs))) as H1.
      { eapply leads_step; [constructor|]. unfold holds. simpl. multiset_solver. }
      revert H1. generalize (h, (lf, (o, off, n) :: vs)). intros t H1. remember (o, (lf, vs)) as t0. induction Hl as [|t1 h1 v1 t2 Hl IHl Hin]; [by subst|]. eapply leads_step; [by apply IHl|done].
    + done.
    + by rewrite Ha addr_add_add.
    + rewrite take_length drop_length. lia.
    + rewrite {1}E. rewrite take_length drop_length Nat.min_l; [|lia]. rewrite skipn_firstn_comm take_take drop_drop. f_equal. lia.
Qed.
Lemma bytes_block_sub off n l : take n (drop off (bytes_block l)) = bytes_block (take n (drop off l)).
Proof. unfold bytes_block. by rewrite -fmap_drop -fmap_take. Qed.
Lemma wpi_read_leaf h lf n off len f : lf_wf lf -> off + len <= length (lf_content lf) ->
  repr h (lf, []) n ⊢ wpi (read_addr (addr_add (lf_addr h lf) off) len) f (fun x f' => ⌈x = bytes_block (take len (drop off (lf_content lf))) /\ f' = f⌉ ∗ repr h (lf, []) n).
Proof.
  intros Hw Hl. unfold read_addr. destruct (decide (len = 0)) as [->|Hne].
  { iIntros "H". iApply wpi_ret. iFrame "H". done. }
  unfold repr, memory_of, struct_of, kind_of, addr_of. simpl. destruct lf as [[l|[[[p l]|] m]]|[[[p l] [o|]] m]]; simpl in *; try (destruct Hw; simpl in *; lia).
  - destruct (decide (l = [])) as [->|Hne2]; [simpl in Hl; lia|]. simpl. iIntros "[H1 H2]". iApply wpi_bind. iApply (wpi_get_obj with "H1"). iIntros "H1". simpl.
    rewrite decide_True; [|unfold bytes_block; rewrite fmap_length; lia]. iApply wpi_ret. iFrame "H1". iPureIntro. split; [|done]. apply bytes_block_sub.
  - destruct Hw as [_ Hm]. iIntros "[H1 H2]". iApply (wpi_load with "H2"); [unfold bytes_block; rewrite fmap_length; rewrite take_length in Hl; lia|]. iIntros "H2". iFrame "H1 H2". iPureIntro. split; [|done].
    rewrite bytes_block_sub. rewrite take_length in Hl. f_equal. rewrite skipn_firstn_comm take_take. f_equal. lia.
  - destruct Hw as [_ Hm]. rewrite take_length drop_length in Hl. iIntros "[H1 H2]". iApply (wpi_load with "H2"); [unfold bytes_block; rewrite fmap_length; lia|]. iIntros "H2". iFrame "H1 H2". iPureIntro. split; [|done].
    rewrite bytes_block_sub. f_equal. rewrite skipn_firstn_comm take_take drop_drop. f_equal. lia.
Qed.

Section rules.
Context {A : Type} (Q : A -> nat -> cP).
(** Looking at a buffer one has a reference to. *)
Lemma cwp_look h v (k : cbuf -> code A) f :
  tok (h, v) -∗ (∀ n f', ⌈f <= f'⌉ -∗ tok (h, v) -∗ cwp CInv (k (struct_of h v n)) f' Q) -∗ cwp CInv (Act (get_obj h) k) f Q.
Proof.
  iIntros "H1 H2". iApply (rc_read repr holds repr_excl _ _ (fun x => exists n, x = struct_of h v n) (h, v) h v with "H1"); [constructor| |].
  - intros n f' _. iIntros "[H1 H2]". iApply (wpi_get_obj with "H1"). iIntros "H1". iFrame "H1 H2". iPureIntro. split; [by eexists|done].
  - iIntros (x f') "%Hx H1". destruct Hx as [Hf [n ->]]. by iApply ("H2" with "[//] H1").
Qed.
Lemma cwp_read_addr h v c off len (k : block -> code A) f : wf v -> content v = c -> off + len <= length c ->
  tok (h, v) -∗ (∀ f', ⌈f <= f'⌉ -∗ tok (h, v) -∗ cwp CInv (k (bytes_block (take len (drop off c)))) f' Q) -∗ cwp CInv (Act (read_addr (addr_add (addr_of h v) off) len) k) f Q.
Proof.
  intros Hw Hc Hl. destruct (bottom h v Hw) as (hb&off'&Hle&Hlw&Ha&Hb&E). iIntros "H1 H2".
  iApply (rc_read repr holds repr_excl _ _ (fun x => x = bytes_block (take len (drop off c))) (h, v) hb (v.1, []) with "H1"); [done| |].
  - intros n f' _. rewrite Ha addr_add_add. subst c.
    replace (take len (drop off (content v))) with (take len (drop (off' + off) (lf_content v.1))); [apply wpi_read_leaf; [done|lia]|].
    rewrite E. rewrite skipn_firstn_comm take_take drop_drop. f_equal. lia.
  - iIntros (x f') "%Hx H1". destruct Hx as [Hf ->]. by iApply ("H2" with "[//] H1").
Qed.
Lemma values_block l s : values (bytes_block l) s = Done (l, s).
Proof. unfold values, bytes_block. replace (mapM _ _) with (Some l); [done|]. symmetry. apply mapM_Some. induction l; constructor; done. Qed.
Lemma cwp_values h v c len (k : bytes -> code A) f : wf v -> content v = c -> len <= length c ->
  tok (h, v) -∗ (∀ f', ⌈f <= f'⌉ -∗ tok (h, v) -∗ cwp CInv (k (take len c)) f' Q) -∗ cwp CInv (Act (bind (read_addr (addr_of h v) len) values) k) f Q.
Proof.
  intros Hw Hc Hl. destruct (bottom h v Hw) as (hb&off'&Hle&Hlw&Ha&Hb&E). iIntros "H1 H2".
  iApply (rc_read repr holds repr_excl _ _ (fun x => x = take len c) (h, v) hb (v.1, []) with "H1"); [done| |].
  - intros n f' _. rewrite Ha. subst c. iIntros "H". iApply wpi_bind. iApply (wpi_wand with "[H]"); [iApply (wpi_read_leaf with "H"); [done|lia]|].
    iIntros (x f'') "%Hf [%Hx H]". destruct Hx as [-> ->]. iStopProof. apply hentails_intro. intros r Hr fr orc Hd. rewrite values_block. exists r. split; [done|]. split; [done|]. split; [done|]. split; [done|].
    exists pempty, r. rewrite punion_empty_l. split; [done|]. split; [apply pdisj_empty_l|]. split; [|done]. split; [done|]. split; [|done].
    rewrite E take_take. f_equal. lia.
  - iIntros (x f') "%Hx H1". destruct Hx as [Hf ->]. by iApply ("H2" with "[//] H1").
Qed.
Lemma wpi_add_count h o d f (K : Z -> nat -> hPropI cbuf) :
  h ↦o o -∗ (h ↦o CBuf (buffer o) (size o) (buffer_type o) (count o + d)%Z -∗ K (count o + d)%Z f) -∗ wpi (add_count d h) f K.
Proof.
  iIntros "H1 H2". unfold add_count. iApply wpi_bind. iApply (wpi_get_obj with "H1"). iIntros "H1". iApply wpi_bind. iApply (wpi_set_obj with "H1"). iIntros "H1". iApply wpi_ret. by iApply "H2".
Qed.
Lemma cwp_inc h v (k : Z -> code A) f :
  tok (h, v) -∗ (∀ x f', ⌈f <= f'⌉ -∗ tok (h, v) -∗ tok (h, v) -∗ cwp CInv (k x) f' Q) -∗ cwp CInv (Act (add_count 1 h) k) f Q.
Proof.
  iIntros "H1 H2". iApply (rc_count repr holds repr_excl _ _ (fun x j e => j = 2 /\ e = false) h v emp%I with "H1").
  - intros n f' Hn. iIntros "[H1 H2]". iApply (wpi_add_count with "H1"). iIntros "H1". iExists 2, (S n). iSplit; [iPureIntro; split; [split; [done|by rewrite bool_decide_eq_false_2]|split; [done|lia]]|].
    unfold repr. iFrame "H2". simpl. replace (Z.of_nat n + 1)%Z with (Z.of_nat (S n)) by lia. done.
  - iIntros (x j e f') "%Hx H1". destruct Hx as (Hf&->&->). simpl. rewrite right_id_L toks_union toks_tok. iDestruct "H1" as "[H1 H3]". iApply ("H2" with "[//] H1 H3").
Qed.
(** Giving up a reference: the last one gets the buffer. *)
Lemma cwp_dec h v (k : Z -> code A) f :
  tok (h, v) -∗ ((∀ x f', ⌈f <= f' /\ x <> 0%Z⌉ -∗ cwp CInv (k x) f' Q) ∧ (∀ f', ⌈f <= f'⌉ -∗ lift (h ↦o struct_of h v 0) -∗ lift (memory_of v) -∗ toks (holds v) -∗ cwp CInv (k 0%Z) f' Q)) -∗
  cwp CInv (Act (add_count (-1) h) k) f Q.
Proof.
  iIntros "H1 H2". iApply (rc_count repr holds repr_excl _ _ (fun x j e => j = 0 /\ (e = true <-> x = 0%Z)) h v (h ↦o struct_of h v 0 ∗ memory_of v)%I with "H1").
  - intros n f' Hn. iIntros "[H1 H2]". iApply (wpi_add_count with "H1"). iIntros "H1". iExists 0, (n - 1). iSplit; [iPureIntro; split; [split; [done|]|split; [done|lia]]|].
    { rewrite bool_decide_eq_true. simpl. lia. }
    destruct (decide (n - 1 = 0)) as [E|E]; unfold repr; iFrame "H2"; simpl.
    + replace (Z.of_nat n + -1)%Z with 0%Z by lia. done.
    + replace (Z.of_nat n + -1)%Z with (Z.of_nat (n - 1)) by lia. done.
  - iIntros (x j e f') "%Hx H1". destruct Hx as (Hf&->&He). simpl. destruct e.
    + assert (x = 0%Z) as -> by by apply He. rewrite lift_sep. iDestruct "H1" as "[[H1 H3] H4]". iDestruct "H2" as "[_ H2]". iApply ("H2" with "[//] H1 H3 H4").
    + iEval (rewrite toks_empty) in "H1". iDestruct "H2" as "[H2 _]". iApply "H2". iPureIntro. split; [done|]. intros ->. destruct He as [_ He]. by discriminate He.
Qed.
End rules.

(** DecRef. *)
Lemma cwp_free_all (Q : unit -> nat -> cP) stack f :
  lift ([∗ list] s ∈ stack, ∃ o, s ↦o o) -∗ (∀ f', ⌈f <= f'⌉ -∗ Q tt f') -∗ cwp CInv (free_all stack) f Q.
Proof.
  revert f. induction stack as [|h stack IH]; iIntros (f) "H1 H2"; rewrite (frob_eq (free_all _)); simpl.
  - iEval (rewrite lift_emp) in "H1". iApply cwp_ret. iApply upd_intro. by iApply "H2".
  - rewrite lift_sep lift_exist. iDestruct "H1" as "[(%o&Ho) H1]". iApply (cwp_free_obj with "Ho"). iIntros (f') "%Hf". iApply (IH with "H1"). iIntros (f'') "%Hf'". iApply "H2". iPureIntro. lia.
Qed.
Lemma cwp_DecRef_loop (Q : unit -> nat -> cP) lf vs : lf_wf lf -> forall h stack f,
  tok (h, (lf, vs)) -∗ lift ([∗ list] s ∈ stack, ∃ o, s ↦o o) -∗ (∀ f', ⌈f <= f'⌉ -∗ Q tt f') -∗ cwp CInv (DecRef_loop h stack) f Q.
Proof.
  intros Hw. induction vs as [|[[o off] n] vs IH]; iIntros (h stack f) "H1 H2 H3"; rewrite (frob_eq (DecRef_loop _ _)); simpl.
  - iApply (cwp_dec with "H1"). iSplit.
    + iIntros (x f') "%Hx". rewrite decide_False; [|tauto]. iApply (cwp_free_all with "H2"). iIntros (f'') "%Hf". iApply "H3". iPureIntro. lia.
    + iIntros (f') "%Hf H1 H4 H5". cbn [decide]. unfold holds. simpl. rewrite toks_empty. iClear "H5". iApply (cwp_get_obj with "H1"). iIntros (f1) "%Hf1 H1". simpl. unfold kind_of, memory_of, addr_of. simpl.
      iAssert (lift ([∗ list] s ∈ h :: stack, ∃ o, s ↦o o))%I with "[H1 H2]" as "H1". { simpl. rewrite lift_sep. iFrame "H2". rewrite lift_exist. by iExists _. }
      destruct lf as [[l|[[[p l]|] m]]|[[[p l] [o|]] m]]; simpl.
      * iEval (rewrite lift_emp) in "H4". iApply (cwp_free_all _ (h :: stack) with "H1"). iIntros (f2) "%Hf2". iApply "H3". iPureIntro. lia.
      * iApply (cwp_free with "H4"). iIntros (f2) "%Hf2". iApply (cwp_free_all _ (h :: stack) with "H1"). iIntros (f3) "%Hf3". iApply "H3". iPureIntro. lia.
      * iEval (rewrite lift_emp) in "H4". iApply cwp_none; [done|]. iIntros (f2) "%Hf2". iApply (cwp_free_all _ (h :: stack) with "H1"). iIntros (f3) "%Hf3". iApply "H3". iPureIntro. lia.
      * iApply (cwp_free with "H4"). iIntros (f2) "%Hf2". iApply (cwp_free_all _ (h :: stack) with "H1"). iIntros (f3) "%Hf3". iApply "H3". iPureIntro. lia.
      * iApply (cwp_free with "H4"). iIntros (f2) "%Hf2". iApply (cwp_free_all _ (h :: stack) with "H1"). iIntros (f3) "%Hf3". iApply "H3". iPureIntro. lia.
  - iApply (cwp_dec with "H1"). iSplit.
    + iIntros (x f') "%Hx". rewrite decide_False; [|tauto]. iApply (cwp_free_all with "H2"). iIntros (f'') "%Hf". iApply "H3". iPureIntro. lia.
    + iIntros (f') "%Hf H1 H4 H5". cbn [decide]. unfold holds, memory_of. simpl. rewrite toks_tok. iEval (rewrite lift_emp) in "H4". iApply (cwp_get_obj with "H1"). iIntros (f1) "%Hf1 H1". simpl.
      iApply (IH with "H5 [H1 H2]"); [|iIntros (f2) "%Hf2"; iApply "H3"; iPureIntro; lia]. simpl. rewrite lift_sep. iFrame "H2". rewrite lift_exist. by iExists _.
Qed.

(** What it is to hold something. *)
Definition own (x : held) : cP :=
  match x with
  | Ref h c => ∃ v, ⌈wf v /\ content v = c⌉ ∗ tok (h, v)
  | Mem p l => lift (p ↦b bytes_block l)
  | Writable h b => ⌈b <> [] /\ (Z.of_nat (length b) <= UINT32_MAX)%Z⌉ ∗ lift (h ↦o CBuf (AStorage h 0) (Z.of_nat (length b)) (Copied b) 1)
  end%I.
Notation hold := (all own).
Lemma hold_cons x l : hold (x :: l) ⊣⊢ own x ∗ hold l.
Proof. done. Qed.
Lemma hold_nil : ⊢ hold [].
Proof. unfold all. simpl. done. Qed.
Global Hint Extern 0 (environments.envs_entails _ (all own _)) => iApply hold_nil : core.
Lemma hold_one x : hold [x] ⊣⊢ own x.
Proof. unfold all. simpl. apply right_id. apply _. Qed.
Lemma hold_app l l' : hold (l ++ l') ⊣⊢ hold l ∗ hold l'.
Proof. apply big_sepL_app. Qed.

Lemma share_new h v c : wf v -> content v = c -> holds v = ∅ -> lift (h ↦o struct_of h v 1) -∗ lift (memory_of v) -∗ upd CInv (own (Ref h c)).
Proof.
  intros Hw Hc Hh. iIntros "H1 H2". iMod (rc_share repr holds repr_excl h v with "[H1 H2]") as "H".
  - rewrite Hh toks_empty. iSplitL; [|done]. unfold repr. rewrite lift_sep. iFrame "H1 H2".
  - iApply upd_intro. iExists v. by iFrame "H".
Qed.
Lemma size_nat sz : is_u32 sz -> (Z.of_nat (Z.to_nat sz) = sz)%Z.
Proof. unfold is_u32. lia. Qed.
Lemma cwp_create (Q : ptr -> nat -> cP) src sz c P f : is_u32 sz -> length c = Z.to_nat sz ->
  (forall (k : block -> code ptr) f1, P -∗ (∀ f', ⌈f1 <= f'⌉ -∗ P -∗ cwp CInv (k (bytes_block c)) f' Q) -∗ cwp CInv (Act (read_source src (Z.to_nat sz)) k) f1 Q) ->
  P -∗ (∀ r f', ⌈f <= f' /\ made r f f'⌉ -∗ P -∗ hold (new_ref r c []) -∗ Q r f') -∗ cwp CInv (CONSTBUFFER_Create_Internal src sz) f Q.
Proof.
  intros Hu Hl Hr. iIntros "HP HQ". unfold CONSTBUFFER_Create_Internal, act. rewrite pbind_act. iApply cwp_new_obj. iSplit.
  - iIntros (h f1) "%Hf1 H1". rewrite pbind_ret. unfold is_u32 in Hu. destruct (decide (sz = 0)%Z) as [->|Hne].
    + destruct c; [|done]. rewrite pbind_act. iApply (cwp_set_obj with "H1"). iIntros (f2) "%Hf2 H1". rewrite pbind_ret. iApply cwp_ret.
      iMod (share_new h (inl (inl []), []) with "H1 []") as "H1"; [by split|done..|by rewrite /memory_of /= lift_emp|]. iApply upd_intro. iApply ("HQ" with "[] HP [H1]"); [iPureIntro; split; [lia|done]|]. simpl. rewrite hold_one. iFrame "H1".
    + rewrite pbind_act. iApply (Hr with "HP"). iIntros (f2) "%Hf2 HP". rewrite pbind_ret. rewrite pbind_act. iApply (cwp_set_obj with "H1"). iIntros (f3) "%Hf3 H1". rewrite pbind_ret. iApply cwp_ret.
      iMod (share_new h (inl (inl c), []) with "[H1] []") as "H1"; [|done..| | |].
      * split; [simpl; lia|done].
      * unfold struct_of, addr_of, kind_of, content, size_of. simpl. rewrite decide_False; [|intros ->; simpl in Hl; lia]. rewrite Hl Z2Nat.id; [done|lia].
      * by rewrite /memory_of /= lift_emp.
      * iApply upd_intro. iApply ("HQ" with "[] HP [H1]"); [iPureIntro; split; [lia|done]|]. simpl. rewrite hold_one. iFrame "H1".
  - iIntros (f1) "%Hf1". rewrite pbind_ret. iApply cwp_ret. iApply upd_intro. iApply ("HQ" with "[] HP []"); [|iApply hold_nil]. iPureIntro. split; [lia|intros _; lia].
Qed.

Notation goal_of o f := (cwp CInv (run o) f (answer lib own answers o f)).
(** Ends a call. *)
Lemma finish o f r f' : f <= f' -> answers o r f f' -> hold (gives o r) ⊢ cwp CInv (Ret r) f' (answer lib own answers o f).
Proof. intros Hf Ha. iIntros "H". iApply cwp_ret. iApply upd_intro. unfold answer. iSplit; [done|]. iFrame "H". Qed.
Lemma read_smem (Q : ptr -> nat -> cP) (k : block -> code ptr) l n c f1 : n <= length l -> c = take n l ->
  emp -∗ (∀ f', ⌈f1 <= f'⌉ -∗ emp -∗ cwp CInv (k (bytes_block c)) f' Q) -∗ cwp CInv (Act (read_source (SMem l) n) k) f1 Q.
Proof. intros Hn ->. iIntros "_ H". iApply cwp_none; [intros s; simpl; rewrite decide_True //|]. iIntros (f') "%Hf". by iApply "H". Qed.
(** Of a call into another function: its result, then the rest. *)
Ltac sub := iApply cwp_bind.
Ltac step := unfold act; repeat first [rewrite pbind_act | rewrite pbind_ret | progress cbn beta iota].

Lemma dec_no P `{Decision P} (Q R : Prop) : ~ P -> R -> if decide P then Q else R.
Proof. intros. by destruct (decide P). Qed.
Lemma dec_yes P `{Decision P} (Q R : Prop) : P -> Q -> if decide P then Q else R.
Proof. intros. by destruct (decide P). Qed.
Lemma spec_malloc l f : ⊢ goal_of (Malloc l) f.
Proof.
  unfold run. step. iApply cwp_malloc. iSplit.
  - iIntros (p f1) "%Hf1 H1". step. iApply (cwp_det _ _ _ _ (fun _ => True) _ (p ↦b bytes_block l)%I with "H1").
    + intros f'. iIntros "H". unfold fresh_block. iApply (wpi_store with "H"); [rewrite replicate_length; unfold bytes_block; rewrite fmap_length; lia|]. iIntros "H". simpl.
      rewrite drop_ge; [|rewrite replicate_length; unfold bytes_block; rewrite fmap_length; lia]. rewrite app_nil_r. by iFrame "H".
    + iIntros (x f2) "[%Hf2 _] H1". step. iApply (finish (Malloc l)); [lia|done|]. simpl. rewrite hold_one. iFrame "H1".
  - iIntros (f1) "%Hf1". step. iApply (finish (Malloc l)); [lia| |done]. intros _. lia.
Qed.
Lemma spec_free p l f : own (Mem p l) ⊢ goal_of (Free p l) f.
Proof. iIntros "H". unfold run. step. iApply (cwp_free with "H"). iIntros (f1) "%Hf1". step. by iApply (finish (Free p l)). Qed.
Lemma spec_create src sz f : allowed (Create src sz) -> ⊢ goal_of (Create src sz) f.
Proof.
  intros [Hu Hs]. unfold run, CONSTBUFFER_Create. destruct src as [l|].
  - sub. iApply (cwp_create _ _ _ (take (Z.to_nat sz) l) emp%I with "[//]"); [done|rewrite take_length; lia| |].
    + intros k f1. apply read_smem; [lia|done].
    + iIntros (r f') "%Hf _ H". iApply (finish (Create (Some l) sz)); [tauto| |done]. apply dec_no; [by intros [? _]|tauto].
  - destruct (decide (sz <> 0)%Z) as [Hz|Hz].
    + step. iApply (finish (Create None sz)); [done|by apply dec_yes|done].
    + assert (sz = 0%Z) as -> by lia. sub. iApply (cwp_create _ _ _ [] emp%I with "[//]"); [done|done| |].
      * intros k f1. iIntros "_ H". iApply cwp_none; [done|]. iIntros (f') "%Hf". by iApply "H".
      * iIntros (r f') "%Hf _ H". iApply (finish (Create None 0)); [tauto| |]. { apply dec_no; [by intros [_ ?]|tauto]. } done.
Qed.
Lemma u32_range z : is_u32 (u32 z).
Proof. unfold is_u32, u32, UINT32_MOD, UINT32_MAX. pose proof (Z.mod_pos_bound z 4294967296). lia. Qed.
Lemma u32_small z : is_u32 z -> u32 z = z.
Proof. unfold is_u32, u32, UINT32_MOD, UINT32_MAX. intros. apply Z.mod_small. lia. Qed.
Lemma spec_create_from_buffer b f : ⊢ goal_of (CreateFromBuffer b) f.
Proof.
  unfold run, CONSTBUFFER_CreateFromBuffer. destruct b as [l|].
  - assert (u32 (Z.of_nat (length l)) <= Z.of_nat (length l))%Z as Hle. { unfold u32, UINT32_MOD. apply Z.mod_le; lia. }
    sub. iApply (cwp_create _ _ _ (take (Z.to_nat (u32 (size_of l))) l) emp%I with "[//]"); [apply u32_range|unfold size_of; rewrite take_length; lia| |].
    + intros k f1. apply read_smem; [lia|done].
    + iIntros (r f') "%Hf _ H". iApply (finish (CreateFromBuffer (Some l))); [tauto| |done]. simpl. tauto.
  - step. by iApply (finish (CreateFromBuffer None)).
Qed.
Lemma spec_move src sz f : allowed (CreateWithMoveMemory src sz) -> hold (hold_mem src) ⊢ goal_of (CreateWithMoveMemory src sz) f.
Proof.
  intros [Hu Hs]. iIntros "H". unfold run, CONSTBUFFER_CreateWithMoveMemory. unfold is_u32 in Hu. destruct src as [[p l]|]; simpl.
  - destruct (decide (Some p = None /\ (sz > 0)%Z)) as [[? _]|_]; [done|]. step. iApply cwp_new_obj. iSplit.
    + iIntros (h f1) "%Hf1 H1". step. iEval (rewrite hold_cons) in "H". iDestruct "H" as "[H _]". iApply upd_cwp.
      iMod (share_new h (inl (inr (Some (p, l), Z.to_nat sz)), []) with "[H1] [H]") as "H1"; [|done..| |done|].
      * split; simpl; [rewrite take_length|]; lia.
      * unfold struct_of, addr_of, kind_of, content, size_of. simpl. rewrite take_length Nat.min_l; [|lia]. rewrite Z2Nat.id; [done|lia].
      * iApply upd_intro. iApply (finish (CreateWithMoveMemory (Some (p, l)) sz)); [lia| |simpl; rewrite hold_one; iFrame "H1"]. apply dec_no; [by intros [? _]|done].
    + iIntros (f1) "%Hf1". step. iApply (finish (CreateWithMoveMemory (Some (p, l)) sz)); [lia| |done]. apply dec_no; [by intros [? _]|intros _; lia].
  - destruct (decide (None = None /\ (sz > 0)%Z)) as [[_ Hz]|Hz]; step.
    + iApply (finish (CreateWithMoveMemory None sz)); [done| |done]. apply dec_yes; [|done]. split; [done|]. intros ->. lia.
    + assert (sz = 0%Z) as ->. { destruct (decide (sz = 0)%Z); [done|]. exfalso. apply Hz. split; [done|lia]. }
      iApply cwp_new_obj. iSplit.
      * iIntros (h f1) "%Hf1 H1". step. iApply upd_cwp. iMod (share_new h (inl (inr (None, 0)), []) with "H1 []") as "H1"; [by split|done..|by rewrite /memory_of /= lift_emp|].
        iApply upd_intro. iApply (finish (CreateWithMoveMemory None 0)); [lia| |simpl; rewrite hold_one; iFrame "H1"]. apply dec_no; [by intros [_ ?]|done].
      * iIntros (f1) "%Hf1". step. iApply (finish (CreateWithMoveMemory None 0)); [lia| |done]. apply dec_no; [by intros [_ ?]|intros _; lia].
Qed.
Lemma spec_custom q l at_ sz func f : allowed (CreateWithCustomFree q l at_ sz func) -> own (Mem q l) ⊢ goal_of (CreateWithCustomFree q l at_ sz func) f.
Proof.
  intros [Hu Hs]. iIntros "H". unfold run, CONSTBUFFER_CreateWithCustomFree. unfold is_u32 in Hu.
  set (src := match at_ with None => ANull | Some off => ABlock q off end).
  assert (Hdec : decide (src = ANull /\ (sz > 0)%Z \/ func = false) = decide (src = ANull /\ (sz > 0)%Z \/ func = false)) by done.
  destruct (decide (src = ANull /\ (sz > 0)%Z \/ func = false)) as [Hb|Hb].
  - step. iApply (finish (CreateWithCustomFree q l at_ sz func)); [done| |].
    + apply dec_yes; [|done]. destruct Hb as [Hb|Hb]; [left|by right]. destruct Hb as [Hb1 Hb2]. unfold src in Hb1. destruct at_; [done|]. split; [done|lia].
    + simpl. destruct at_ as [off|]; rewrite hold_one; iFrame "H".
  - assert (func = true) as -> by (destruct func; [done|]; exfalso; apply Hb; by right). assert (match at_ with None => sz = 0%Z | _ => True end) as Hz.
    { unfold src in Hb. destruct at_ as [off|]; [done|]. destruct (decide (sz = 0)%Z); [done|]. exfalso. apply Hb. left. split; [done|lia]. }
    assert (Ha : forall r f', f <= f' -> (r = None -> f < f') -> answers (CreateWithCustomFree q l at_ sz true) (RHandle r) f f').
    { intros r f' Hf Hm. apply dec_no; [|done]. intros [[-> ?]|?]; done. }
    step. iApply cwp_new_obj. iSplit.
    + iIntros (h f1) "%Hf1 H1". step. iApply upd_cwp.
      iMod (share_new h (inr (q, l, at_, Z.to_nat sz), []) with "[H1] [H]") as "H1"; [|done..| |done|].
      * unfold wf, wf_v, lf_wf. simpl. destruct at_ as [off|]; [rewrite take_length drop_length; lia|]. subst sz. done.
      * unfold struct_of, addr_of, kind_of, content, size_of. simpl. destruct at_ as [off|]; simpl; [|by subst]. rewrite take_length drop_length Nat.min_l; [|lia]. rewrite Z2Nat.id; [done|lia].
      * iApply upd_intro. iApply (finish (CreateWithCustomFree q l at_ sz true)); [lia|by apply Ha|]. simpl. destruct at_ as [off|]; simpl; rewrite hold_one; iFrame "H1".
    + iIntros (f1) "%Hf1". step. iApply (finish (CreateWithCustomFree q l at_ sz true)); [lia|apply Ha; [lia|intros _; lia]|]. simpl. destruct at_ as [off|]; rewrite hold_one; iFrame "H".
Qed.
Lemma slice_fails_spec s offset sz : is_u32 s -> is_u32 offset -> is_u32 sz -> slice_fails s offset sz = bool_decide (offset + sz > s)%Z.
Proof.
  unfold slice_fails, is_u32. intros Hs Ho Hz. destruct (Z.gtb_spec offset s); [rewrite bool_decide_eq_true_2 //; lia|]. destruct (Z.gtb_spec offset (UINT32_MAX - sz)); [rewrite bool_decide_eq_true_2 //; lia|].
  simpl. rewrite u32_small; [|unfold is_u32; lia]. destruct (Z.gtb_spec (offset + sz) s); [rewrite bool_decide_eq_true_2 //; lia|rewrite bool_decide_eq_false_2 //; lia].
Qed.
Lemma size_u32 v : wf v -> is_u32 (size_of (content v)).
Proof. intros Hw. pose proof (content_small v Hw). unfold is_u32, size_of in *. lia. Qed.
Lemma spec_view r offset sz f : allowed (CreateFromOffsetAndSize r offset sz) -> hold (hold_ref r) ⊢ goal_of (CreateFromOffsetAndSize r offset sz) f.
Proof.
  intros [Ho Hz]. iIntros "H". unfold run, CONSTBUFFER_CreateFromOffsetAndSize. destruct r as [[h c]|]; simpl; [|step; by iApply (finish (CreateFromOffsetAndSize None offset sz))].
  iEval (rewrite hold_cons) in "H". iDestruct "H" as "[(%v&%Hv&H) _]". destruct Hv as [Hw Hc]. pose proof (size_u32 v Hw) as Hsz. rewrite Hc in Hsz.
  step. iApply (cwp_look with "H"). iIntros (n f1) "%Hf1 H". step. unfold struct_of. simpl. rewrite Hc slice_fails_spec //. case_bool_decide as Hb.
  - step. iApply (finish (CreateFromOffsetAndSize (Some (h, c)) offset sz)); [done|by apply dec_yes|]. simpl. rewrite hold_cons. iSplitL; [|done]. iExists v. by iFrame "H".
  - destruct (decide (offset = 0 /\ sz = size_of c)%Z) as [[-> ->]|Hn].
    + step. iApply (cwp_inc with "H"). iIntros (x f2) "%Hf2 H1 H2". step. step. iApply (finish (CreateFromOffsetAndSize (Some (h, c)) 0 (size_of c))); [lia|apply dec_no; [done|]; by apply dec_yes|].
      simpl. rewrite !hold_cons. iSplitL "H1"; [iExists v; by iFrame "H1"|]. iSplitL; [|done]. iExists v. iFrame "H2". iPureIntro. split; [done|]. unfold slice, size_of. by rewrite Nat2Z.id drop_0 firstn_all.
    + assert (Hsl : Z.to_nat offset + Z.to_nat sz <= length c) by (unfold size_of, is_u32 in *; lia).
      step. iApply cwp_new_obj. iSplit.
      * iIntros (h' f2) "%Hf2 H1". step. step. iApply (cwp_inc with "H"). iIntros (x f3) "%Hf3 H2 H3". step. step. iApply upd_cwp.
        iMod (rc_share repr holds repr_excl h' (v.1, (h, Z.to_nat offset, Z.to_nat sz) :: v.2) with "[H1 H2]") as "H1".
        { unfold holds, repr, memory_of. simpl. rewrite toks_tok lift_sep lift_emp. destruct v as [lf vs]. simpl. iFrame "H2". iSplitL; [|done]. unfold struct_of, addr_of, kind_of, content, size_of. simpl.
          rewrite take_length drop_length. unfold content in Hc. simpl in Hc. rewrite Hc Nat.min_l; [|lia]. rewrite Z2Nat.id; [done|]. unfold is_u32 in Hz. lia. }
        iApply upd_intro. iApply (finish (CreateFromOffsetAndSize (Some (h, c)) offset sz)); [lia|apply dec_no; [done|]; by apply dec_no|]. simpl. rewrite !hold_cons. iSplitL "H3"; [iExists v; by iFrame "H3"|].
        iSplitL; [|done]. iExists _. iFrame "H1". iPureIntro. unfold wf, content in *. simpl. rewrite Hc. done.
      * iIntros (f2) "%Hf2". step. step. iApply (finish (CreateFromOffsetAndSize (Some (h, c)) offset sz)); [lia|apply dec_no; [done|]; apply dec_no; [done|]; intros _; lia|].
        simpl. rewrite hold_cons. iSplitL; [|done]. iExists v. by iFrame "H".
Qed.
Lemma spec_copy r offset sz f : allowed (CreateFromOffsetAndSizeWithCopy r offset sz) -> hold (hold_ref r) ⊢ goal_of (CreateFromOffsetAndSizeWithCopy r offset sz) f.
Proof.
  intros [Ho Hz]. iIntros "H". unfold run, CONSTBUFFER_CreateFromOffsetAndSizeWithCopy. destruct r as [[h c]|]; simpl; [|step; by iApply (finish (CreateFromOffsetAndSizeWithCopy None offset sz))].
  iEval (rewrite hold_cons) in "H". iDestruct "H" as "[(%v&%Hv&H) _]". destruct Hv as [Hw Hc]. pose proof (size_u32 v Hw) as Hsz. rewrite Hc in Hsz.
  step. iApply (cwp_look with "H"). iIntros (n f1) "%Hf1 H". step. unfold struct_of. simpl. rewrite Hc slice_fails_spec //. case_bool_decide as Hb.
  - step. iApply (finish (CreateFromOffsetAndSizeWithCopy (Some (h, c)) offset sz)); [done|by apply dec_yes|]. simpl. rewrite hold_cons. iSplitL; [|done]. iExists v. by iFrame "H".
  - assert (Hsl : Z.to_nat offset + Z.to_nat sz <= length c) by (unfold size_of, is_u32 in *; lia). sub.
    iApply (cwp_create _ _ _ (slice (Z.to_nat offset) (Z.to_nat sz) c) (tok (h, v)) with "H"); [done|unfold slice; rewrite take_length drop_length; lia| |].
    + intros k f2. iIntros "H1 H2". iApply (cwp_read_addr with "H1"); [done|done|done|]. iIntros (f3) "%Hf3 H". by iApply ("H2" with "[//] H").
    + iIntros (r f') "%Hf H1 H2". iApply (finish (CreateFromOffsetAndSizeWithCopy (Some (h, c)) offset sz)); [lia| |].
      { apply dec_no; [done|]. intros ?. destruct Hf as [? Hm]. specialize (Hm H). lia. }
      simpl. rewrite hold_cons. iFrame "H2". iExists v. by iFrame "H1".
Qed.
