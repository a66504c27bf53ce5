(** Proofs for CbcProps: what references tell, and the rules for buffers and arrays. *)
From Verif Require Import CslRules Rc CslPool.
From Verif Require Import Common Block CMem Prog CbcModel CbcSpec.

Section borrow.
Context {O V : Type} `{!EqDecision V} {CV : Countable V}.
Context (repr : positive -> V -> nat -> hPropI O) (holds : V -> gmultiset (positive * V)).
Context (repr_excl : forall h v n v' n', repr h v n ∗ repr h v' n' ⊢ False).
(** One more reference to an object that one has a reference to, or that such an object leads to. *)
Lemma rc_borrow {A X} (m : M (st O) X) (k : X -> prog (st O) A) (φ : X -> Prop) t h v f Q : leads holds t (h, v) ->
  (forall n f', 1 <= n -> repr h v n ⊢ wpi m f' (fun x f'' => ⌈φ x /\ f'' = f'⌉ ∗ repr h v (S n))) ->
  tok t -∗ (∀ x f', ⌈f <= f' /\ φ x⌉ -∗ tok t -∗ tok (h, v) -∗ cwp (RInv repr holds) (k x) f' Q) -∗ cwp (RInv repr holds) (Act m k) f Q.
Proof.
  intros Hl Hm. iIntros "H1 H2". iStopProof. apply centails_intro. intros r (r1&r2&->&Hd&->&H2). apply (proj2 (cwp_is_closed (RInv repr holds) Q)).
  intros fr sh orc f' D1 D2 (G&HG&HV&HC) Hf'. cbn [sunion spiece stoks] in D2, HG, HV, HC.
  set (X0 := {[+ t +]} ⊎ stoks r2 ⊎ stoks fr) in *. assert (t ∈ X0 ⊎ held_by holds G) as Ht by multiset_solver.
  pose proof (HV _ _ (leads_valid repr holds repr_excl _ _ _ _ HV Ht Hl)) as Hs. destruct (piece_split repr holds _ _ _ _ _ _ HG Hs D2) as (sh1&sh2&->&Hd'&Da&Db&Ha&Hb).
  pose proof (holds_mono _ _ _ (Hm _ f' (HC _ _ Hs)) Ha) as Hw. set (p := punion (punion pempty (spiece r2)) (spiece fr)) in *.
  specialize (Hw (punion p sh2) orc). assert (pdisj sh1 (punion p sh2)) as Dc. { apply pdisj_union_r. split; [by apply pdisj_sym|done]. }
  specialize (Hw Dc). unfold heap_state. cbn [spiece stoks sunion]. fold p.
  replace (punion p (punion sh1 sh2)) with (punion sh1 (punion p sh2)). 2:{ apply punion_swap. by apply pdisj_sym. }
  destruct (m _) as [[x s']| |]; [|done..]. destruct Hw as (p'&D5&Hmem&Hobj&Hf2&HΦ). destruct HΦ as (pz&p''&->&_&[-> [Hφ Hff]]&HΦ). rewrite punion_empty_l in D5, Hmem, Hobj.
  apply pdisj_union_r in D5 as [D5 D6]. apply sdisj_union_l in D1 as [_ D1].
  set (X1 := ({[+ t +]} ⊎ {[+ (h, v) +]}) ⊎ stoks r2 ⊎ stoks fr).
  assert (Hmul : forall t', multiplicity t' (X1 ⊎ held_by holds G) = multiplicity t' {[+ (h, v) +]} + multiplicity t' (X0 ⊎ held_by holds G)).
  { intros t'. unfold X1, X0. rewrite !multiplicity_disj_union. lia. }
  exists x, s', (sunion (Share pempty ({[+ t +]} ⊎ {[+ (h, v) +]})) r2), (punion p'' sh2). split; [done|]. split; [by apply sdisj_union_l; split; [apply sdisj_empty_l|]|]. cbn [spiece stoks sunion]. fold p X1.
  split; [apply pdisj_union_r; split; [by apply pdisj_sym|done]|].
  split.
  { exists G. split; [|split].
    - eapply holds_mono; [rewrite (big_sepM_delete _ _ _ _ Hs) //|]. exists p'', sh2. split; [done|]. split; [done|]. split.
      + unfold refs. rewrite Hmul multiplicity_singleton. exact HΦ.
      + revert Hb. apply big_sep_refs. intros h' v' Hs'. unfold refs. rewrite Hmul multiplicity_singleton_ne //. intros [= -> ->]. by rewrite lookup_delete in Hs'.
    - intros h' v' Hin. rewrite elem_of_multiplicity Hmul in Hin. destruct (decide ((h', v') = (h, v))) as [[= -> ->]|Hne]; [done|]. rewrite multiplicity_singleton_ne // in Hin. apply HV. rewrite elem_of_multiplicity. lia.
    - intros h' v' Hs'. unfold refs. rewrite Hmul. specialize (HC _ _ Hs'). unfold refs in HC. lia. }
  replace (punion p (punion p'' sh2)) with (punion p'' (punion p sh2)). 2:{ by apply punion_swap. }
  split; [done|]. split; [done|]. split; [lia|].
  specialize (H2 x (fails s') sempty (sdisj_empty_r _)). rewrite sunion_empty_r in H2. specialize (H2 (conj eq_refl (conj (Nat.le_trans _ _ _ Hf' Hf2) Hφ))).
  assert (Htok : forall t0 : positive * V, cholds (tok t0) (Share (pempty : piece O) {[+ t0 +]})). { intros t0. unfold tok. cbn. reflexivity. }
  assert (Hdis : forall (r : share O (positive * V)) (t0 : positive * V), sdisj r (Share (pempty : piece O) {[+ t0 +]})). { intros r t0. unfold sdisj. apply pdisj_empty_r. }
  specialize (H2 _ (Hdis _ t) (Htok _)). specialize (H2 _ (Hdis _ (h, v)) (Htok _)).
  eapply (eq_rect _ (cholds _)); [exact H2|]. unfold sunion. cbn [spiece stoks]. f_equal; [by rewrite !punion_empty_r punion_empty_l|]. rewrite -(assoc_L (⊎)) (comm_L (⊎)) //.
Qed.
End borrow.

(** What a reference tells about a buffer: the bytes at the bottom, and the views on them, the outermost first (the original, offset, size). About an array: at the bottom, the buffers in it and, if they were
    moved, the block they are in and the room left in it; and the views on it. *)
Notation bval := (bytes * list (positive * nat * nat))%type.
Notation aval := (option (positive * nat) * list (positive * bval) * list (positive * nat * nat))%type.
Notation val := (bval + aval)%type.
Definition val_eq_def : EqDecision val := _.
Global Instance val_eq : EqDecision val.
Proof. exact val_eq_def. Qed.
Global Instance val_countable : Countable val.
Proof. apply (@inj_countable' val val_eq_def _ val val_eq (fun x => x) (fun x => x)). done. Qed.
Notation cP := (cPropI obj (positive * val)).

(** The part of a sequence that views leave. *)
Fixpoint part {A} (l : list A) (vs : list (positive * nat * nat)) : list A := match vs with [] => l | (_, off, n) :: vs' => take n (drop off (part l vs')) end.
Definition bcontent (v : bval) : bytes := part v.1 v.2.
Definition borig (v : bval) : ptr := match v.2 with [] => None | (o, _, _) :: _ => Some o end.
Definition bwf (v : bval) : Prop := (len v.1 <= UINT32_MAX)%Z.
Definition seen (v : aval) : list (positive * bval) := part v.1.2 v.2.
Definition awf (v : aval) : Prop := (len v.1.2 <= UINT32_MAX)%Z /\ Forall (fun x => bwf x.2) v.1.2.
Definition base_place (a : positive) (m : option (positive * nat)) : place := match m with None => InNode a 0 | Some (k, _) => InBlock k 0 end.
Fixpoint aplace (a : positive) (m : option (positive * nat)) (vs : list (positive * nat * nat)) : place := match vs with [] => base_place a m | (o, off, _) :: vs' => shift (aplace o m vs') off end.
Definition afree (m : option (positive * nat)) (vs : list (positive * nat * nat)) : freer := match vs, m with (o, _, _) :: _, _ => FreeView o | [], Some _ => FreeMoved | [], None => NoFree end.
Definition cells_of {A} (l : list (positive * A)) : list (option positive) := map (fun x => Some x.1) l.
Definition anode (a : positive) (v : aval) : node :=
  Node (len (seen v)) (afree v.1.1 v.2) (aplace a v.1.1 v.2) (match v.2, v.1.1 with [], None => cells_of v.1.2 | _, _ => [] end).
Definition amem (v : aval) : hPropI obj := match v.2, v.1.1 with [], Some (k, sp) => k ↦o OCells (cells_of v.1.2 ++ replicate sp None) | _, _ => emp end%I.
Definition struct_of (h : positive) (v : val) (n : Z) : obj := match v with inl bv => OBuf (bcontent bv) (borig bv) n | inr av => OArr (anode h av) n end.
Definition memory_of (v : val) : hPropI obj := match v with inl _ => emp%I | inr av => amem av end.
Definition btok (x : positive * bval) : positive * val := (x.1, inl x.2).
Definition holds (v : val) : gmultiset (positive * val) :=
  match v with
  | inl (c, []) => ∅
  | inl (c, (o, _, _) :: vs) => {[+ (o, inl (c, vs)) +]}
  | inr (m, l, []) => list_to_set_disj (map btok l)
  | inr (m, l, (o, _, _) :: vs) => {[+ (o, inr (m, l, vs)) +]}
  end.
Definition repr (h : positive) (v : val) (n : nat) : hPropI obj := (h ↦o struct_of h v (Z.of_nat n) ∗ memory_of v)%I.
Notation CInv := (RInv repr holds).

Lemma repr_excl h v n v' n' : repr h v n ∗ repr h v' n' ⊢ False.
Proof. iIntros "[[H1 _] [H2 _]]". by iDestruct (obj_ne with "H1 H2") as %?. Qed.
Lemma part_len {A} (l : list A) vs : length (part l vs) <= length l.
Proof. induction vs as [|[[o off] n] vs IH]; simpl; [done|]. rewrite take_length drop_length. lia. Qed.
Lemma part_in {A} (l : list A) vs x : x ∈ part l vs -> x ∈ l.
Proof. induction vs as [|[[o off] n] vs IH]; simpl; [done|]. intros Hx. apply IH. apply elem_of_list_lookup in Hx as [i Hi]. rewrite lookup_take_Some lookup_drop in Hi. destruct Hi as [Hi _]. by eapply elem_of_list_lookup_2. Qed.
Lemma leads_trans t1 t2 t3 : leads holds t1 t2 -> leads holds t2 t3 -> leads holds t1 t3.
Proof. intros H1 H2. induction H2 as [|t h v t' Hl IH Hin]; [done|]. eapply leads_step; [by apply IH|done]. Qed.
(** The bottom of an array. *)
Lemma bottom a m l vs : exists ab off, leads holds (a, inr (m, l, vs)) (ab, inr (m, l, [])) /\ aplace a m vs = shift (base_place ab m) off /\ forall i x, part l vs !! i = Some x -> l !! (off + i) = Some x.
Proof.
  revert a. induction vs as [|[[o off] n] vs IH]; intros a; simpl.
  - exists a, 0. split; [constructor|]. split; [by destruct m as [[k sp]|]|done].
  - destruct (IH o) as (ab&off'&H1&H2&H3). exists ab, (off' + off). split; [|split].
    + eapply leads_trans; [|exact H1]. eapply leads_step; [constructor|]. simpl. multiset_solver.
    + rewrite H2. destruct m as [[k sp]|]; simpl; f_equal; lia.
    + intros i x Hi. rewrite lookup_take_Some lookup_drop in Hi. destruct Hi as [Hi _]. rewrite -Nat.add_assoc. by apply H3.
Qed.
Lemma elem_of_toks (l : list (positive * bval)) x : x ∈ l -> btok x ∈ (list_to_set_disj (map btok l) : gmultiset (positive * val)).
Proof. induction l as [|y l IH]; simpl; [by rewrite elem_of_nil|]. rewrite elem_of_cons gmultiset_elem_of_disj_union gmultiset_elem_of_singleton. intros [->|Hx]; [by left|right; auto]. Qed.
Lemma reach a v x : x ∈ seen v -> leads holds (a, inr v) (btok x).
Proof.
  intros Hx. destruct v as [[m l] vs]. destruct (bottom a m l vs) as (ab&off&H1&_). eapply leads_step; [exact H1|]. simpl. apply elem_of_toks. by eapply part_in.
Qed.

Section rules.
Context {A : Type} (Q : A -> nat -> cP).
Lemma cwp_look_node a v (k : node -> code A) f :
  tok (a, inr v) -∗ (∀ f', ⌈f <= f'⌉ -∗ tok (a, inr v) -∗ cwp CInv (k (anode a v)) f' Q) -∗ cwp CInv (Act (get_node a) k) f Q.
Proof.
  iIntros "H1 H2". iApply (rc_read repr holds repr_excl _ _ (fun x => x = anode a v) (a, inr v) a (inr v) with "H1"); [constructor| |].
  - intros n f' _. iIntros "[H1 H2]". unfold get_node. iApply wpi_bind. iApply (wpi_get_obj with "H1"). iIntros "H1". simpl. iApply wpi_ret. iFrame "H1 H2". done.
  - iIntros (x f') "%Hx H1". destruct Hx as [Hf ->]. by iApply ("H2" with "[//] H1").
Qed.
Lemma wpi_slot l i b f (K : positive -> nat -> hPropI obj) : l !! i = Some (Some b) -> K b f ⊢ wpi (slot l i) f K.
Proof. intros Hl. unfold slot. rewrite Hl. apply wpi_ret. Qed.
Lemma cells_lookup {B} (l : list (positive * B)) i x : l !! i = Some x -> cells_of l !! i = Some (Some x.1).
Proof. intros H. unfold cells_of. rewrite list_lookup_fmap H. done. Qed.
Lemma wpi_read_base a m l i x n f : l !! i = Some x ->
  a ↦o OArr (anode a (m, l, [])) n ∗ amem (m, l, []) ⊢ wpi (read_place (base_place a m) i) f (fun y f' => ⌈y = x.1 /\ f' = f⌉ ∗ a ↦o OArr (anode a (m, l, [])) n ∗ amem (m, l, [])).
Proof.
  intros Hx. destruct m as [[k sp]|]; simpl; iIntros "[H1 H2]".
  - iApply wpi_bind. iApply (wpi_get_obj with "H2"). iIntros "H2". iApply wpi_slot; [by apply lookup_app_l_Some, cells_lookup|]. by iFrame "H1 H2".
  - unfold get_node. iApply wpi_bind. iApply wpi_bind. iApply (wpi_get_obj with "H1"). iIntros "H1". iApply wpi_ret. iApply wpi_slot; [by apply cells_lookup|]. iSplit; [done|]. iSplitL "H1"; [iExact "H1"|iExact "H2"].
Qed.
Lemma read_shift p off i : read_place (shift p off) i = read_place p (off + i).
Proof. destruct p; simpl; [done|by rewrite Nat.add_assoc..]. Qed.
Lemma cwp_read_place a v i x (k : positive -> code A) f : seen v !! i = Some x ->
  tok (a, inr v) -∗ (∀ f', ⌈f <= f'⌉ -∗ tok (a, inr v) -∗ cwp CInv (k x.1) f' Q) -∗ cwp CInv (Act (read_place (aplace a v.1.1 v.2) i) k) f Q.
Proof.
  destruct v as [[m l] vs]. unfold seen. simpl. intros Hx. destruct (bottom a m l vs) as (ab&off&H1&H2&H3). iIntros "H1 H2". rewrite H2 read_shift.
  iApply (rc_read repr holds repr_excl _ _ (fun y => y = x.1) _ ab (inr (m, l, [])) with "H1"); [exact H1| |].
  - intros n f' _. exact (wpi_read_base ab m l (off + i) x (Z.of_nat n) f' (H3 _ _ Hx)).
  - iIntros (y f') "%Hx' H1". destruct Hx' as [Hf ->]. by iApply ("H2" with "[//] H1").
Qed.
Lemma cwp_content t h bv (k : bytes -> code A) f : leads holds t (h, inl bv) ->
  tok t -∗ (∀ f', ⌈f <= f'⌉ -∗ tok t -∗ cwp CInv (k (bcontent bv)) f' Q) -∗ cwp CInv (Act (content_of h) k) f Q.
Proof.
  intros Hl. iIntros "H1 H2". iApply (rc_read repr holds repr_excl _ _ (fun x => x = bcontent bv) t h (inl bv) with "H1"); [done| |].
  - intros n f' _. iIntros "[H1 H2]". unfold content_of. iApply wpi_bind. iApply (wpi_get_obj with "H1"). iIntros "H1". simpl. iApply wpi_ret. iSplit; [done|]. iSplitL "H1"; [iExact "H1"|iExact "H2"].
  - iIntros (x f') "%Hx H1". destruct Hx as [Hf ->]. by iApply ("H2" with "[//] H1").
Qed.
Lemma wpi_add_count h v n d f (K : Z -> nat -> hPropI obj) :
  h ↦o struct_of h v n -∗ (h ↦o struct_of h v (n + d)%Z -∗ K (n + d)%Z f) -∗ wpi (add_count d h) f K.
Proof.
  iIntros "H1 H2". unfold add_count. iApply wpi_bind. iApply (wpi_get_obj with "H1"). iIntros "H1". destruct v as [bv|av]; simpl; (iApply wpi_bind; iApply (wpi_set_obj with "H1"); iIntros "H1"; iApply wpi_ret; by iApply "H2").
Qed.
Lemma cwp_inc t h v (k : Z -> code A) f : leads holds t (h, v) ->
  tok t -∗ (∀ x f', ⌈f <= f'⌉ -∗ tok t -∗ tok (h, v) -∗ cwp CInv (k x) f' Q) -∗ cwp CInv (Act (add_count 1 h) k) f Q.
Proof.
  intros Hl. iIntros "H1 H2". iApply (rc_borrow repr holds repr_excl _ _ (fun _ => True) t h v with "H1"); [done| |].
  - intros n f' Hn. iIntros "[H1 H2]". iApply (wpi_add_count with "H1"). iIntros "H1". unfold repr. iFrame "H2". replace (Z.of_nat n + 1)%Z with (Z.of_nat (S n)) by lia. by iFrame "H1".
  - iIntros (x f') "%Hx H1 H3". iApply ("H2" with "[] H1 H3"). iPureIntro. tauto.
Qed.
(** Giving up a reference: the last one gets the object. *)
Lemma cwp_dec h v (k : Z -> code A) f :
  tok (h, v) -∗ ((∀ x f', ⌈f <= f' /\ x <> 0%Z⌉ -∗ cwp CInv (k x) f' Q) ∧ (∀ f', ⌈f <= f'⌉ -∗ lift (h ↦o struct_of h v 0) -∗ lift (memory_of v) -∗ toks (holds v) -∗ cwp CInv (k 0%Z) f' Q)) -∗
  cwp CInv (Act (add_count (-1) h) k) f Q.
Proof.
  iIntros "H1 H2". iApply (rc_count repr holds repr_excl _ _ (fun x j e => j = 0 /\ (e = true <-> x = 0%Z)) h v (h ↦o struct_of h v 0 ∗ memory_of v)%I with "H1").
  - intros n f' Hn. iIntros "[H1 H2]". iApply (wpi_add_count with "H1"). iIntros "H1". iExists 0, (n - 1). iSplit; [iPureIntro; split; [split; [done|]|split; [done|lia]]|].
    { rewrite bool_decide_eq_true. lia. }
    destruct (decide (n - 1 = 0)) as [E|E]; unfold repr; iFrame "H2".
    + replace (Z.of_nat n + -1)%Z with 0%Z by lia. done.
    + replace (Z.of_nat n + -1)%Z with (Z.of_nat (n - 1)) by lia. done.
  - iIntros (x j e f') "%Hx H1". destruct Hx as (Hf&->&He). simpl. destruct e.
    + assert (x = 0%Z) as -> by by apply He. rewrite lift_sep. iDestruct "H1" as "[[H1 H3] H4]". iDestruct "H2" as "[_ H2]". iApply ("H2" with "[//] H1 H3 H4").
    + iEval (rewrite toks_empty) in "H1". iDestruct "H2" as "[H2 _]". iApply "H2". iPureIntro. split; [done|]. intros ->. destruct He as [_ He]. by discriminate He.
Qed.
End rules.

(** The functions that give up references. *)
Ltac sub := iApply cwp_bind.
Ltac step := unfold act; repeat first [rewrite pbind_act | rewrite pbind_ret | progress cbn beta iota].
Ltac done_with := iApply cwp_ret; iApply upd_intro.
Lemma cwp_free_structs (Q : unit -> nat -> cP) stack f :
  lift ([∗ list] s ∈ stack, ∃ o, s ↦o o) -∗ (∀ f', ⌈f <= f'⌉ -∗ Q tt f') -∗ cwp CInv (free_structs stack) f Q.
Proof.
  revert f. induction stack as [|h stack IH]; iIntros (f) "H1 H2"; rewrite (frob_eq (free_structs _)); simpl.
  - iEval (rewrite lift_emp) in "H1". done_with. by iApply "H2".
  - rewrite lift_sep lift_exist. iDestruct "H1" as "[(%o&Ho) H1]". iApply (cwp_free_obj with "Ho"). iIntros (f') "%Hf". iApply (IH with "H1"). iIntros (f'') "%Hf'". iApply "H2". iPureIntro. lia.
Qed.
Lemma push (h : positive) (o : obj) stack : lift (h ↦o o) -∗ lift ([∗ list] s ∈ stack, ∃ o, s ↦o o) -∗ (lift ([∗ list] s ∈ h :: stack, ∃ o, s ↦o o) : cP).
Proof. iIntros "H1 H2". simpl. rewrite lift_sep. iFrame "H2". rewrite lift_exist. by iExists _. Qed.
Lemma cwp_DecRef_loop (Q : unit -> nat -> cP) c vs : forall h stack f,
  tok (h, inl (c, vs)) -∗ lift ([∗ list] s ∈ stack, ∃ o, s ↦o o) -∗ (∀ f', ⌈f <= f'⌉ -∗ Q tt f') -∗ cwp CInv (DecRef_loop h stack) f Q.
Proof.
  induction vs as [|[[o off] n] vs IH]; iIntros (h stack f) "H1 H2 H3"; rewrite (frob_eq (DecRef_loop _ _)); simpl; (iApply (cwp_dec with "H1"); iSplit;
    [iIntros (x f') "%Hx"; rewrite decide_False; [|tauto]; iApply (cwp_free_structs with "H2"); iIntros (f'') "%Hf"; iApply "H3"; iPureIntro; lia|]);
    iIntros (f') "%Hf H1 H4 H5"; cbn [decide]; simpl; iEval (rewrite lift_emp) in "H4".
  - rewrite toks_empty. iClear "H5". iApply (cwp_get_obj with "H1"). iIntros (f1) "%Hf1 H1". simpl. iDestruct (push with "H1 H2") as "H1". iApply (cwp_free_structs _ (h :: stack) with "H1"). iIntros (f2) "%Hf2". iApply "H3". iPureIntro. lia.
  - rewrite toks_tok. iApply (cwp_get_obj with "H1"). iIntros (f1) "%Hf1 H1". simpl. iDestruct (push with "H1 H2") as "H1". iApply (IH with "H5 H1"). iIntros (f2) "%Hf2". iApply "H3". iPureIntro. lia.
Qed.
Lemma cwp_DecRef (Q : unit -> nat -> cP) h bv f : tok (h, inl bv) -∗ (∀ f', ⌈f <= f'⌉ -∗ Q tt f') -∗ cwp CInv (CONSTBUFFER_DecRef h) f Q.
Proof. destruct bv as [c vs]. iIntros "H1 H2". iApply (cwp_DecRef_loop with "H1 [] H2"). by rewrite lift_emp. Qed.
(** Reading an array that nobody else can reach. *)
Lemma cwp_own_node {A} (Q : A -> nat -> cP) a x r (k : node -> code A) f : lift (a ↦o OArr x r) -∗ (∀ f', ⌈f <= f'⌉ -∗ lift (a ↦o OArr x r) -∗ cwp CInv (k x) f' Q) -∗ cwp CInv (Act (get_node a) k) f Q.
Proof.
  iIntros "H1 H2". iApply (cwp_det _ _ _ _ (fun y => y = x) _ (a ↦o OArr x r)%I with "H1").
  - intros f'. iIntros "H1". unfold get_node. iApply wpi_bind. iApply (wpi_get_obj with "H1"). iIntros "H1". iApply wpi_ret. by iFrame "H1".
  - iIntros (y f') "%Hf H1". destruct Hf as [Hf ->]. by iApply ("H2" with "[//] H1").
Qed.
Lemma cwp_own_read (Q : positive -> nat -> cP) a m l r i x f : l !! i = Some x -> lift (a ↦o OArr (anode a (m, l, [])) r) -∗ lift (amem (m, l, [])) -∗
  (∀ f', ⌈f <= f'⌉ -∗ lift (a ↦o OArr (anode a (m, l, [])) r) -∗ lift (amem (m, l, [])) -∗ Q x.1 f') -∗ cwp CInv (read_buffer a i) f Q.
Proof.
  intros Hx. iIntros "H1 H2 H3". unfold read_buffer. step. iApply (cwp_own_node with "H1"). iIntros (f1) "%Hf1 H1". step. change (buffers (anode a (m, l, []))) with (base_place a m).
  iApply (cwp_det _ _ _ _ (fun y => y = x.1) (a ↦o OArr (anode a (m, l, [])) r ∗ amem (m, l, []))%I (a ↦o OArr (anode a (m, l, [])) r ∗ amem (m, l, []))%I with "[H1 H2]").
  - intros f'. by apply wpi_read_base.
  - rewrite lift_sep. iFrame "H1 H2".
  - iIntros (y f') "%Hf H1". destruct Hf as [Hf ->]. rewrite lift_sep. iDestruct "H1" as "[H1 H2]". step. done_with. iApply ("H3" with "[] H1 H2"). iPureIntro. lia.
Qed.
Lemma cwp_release (Q : unit -> nat -> cP) a m l r n : forall i f, i + n = length l ->
  lift (a ↦o OArr (anode a (m, l, [])) r) -∗ lift (amem (m, l, [])) -∗ toks (list_to_set_disj (map btok (drop i l))) -∗
  (∀ f', ⌈f <= f'⌉ -∗ lift (a ↦o OArr (anode a (m, l, [])) r) -∗ lift (amem (m, l, [])) -∗ Q tt f') -∗ cwp CInv (release_buffers a i n) f Q.
Proof.
  induction n as [|n IH]; iIntros (i f Hn) "H1 H2 H3 H4"; cbn [release_buffers].
  - rewrite drop_ge; [|lia]. simpl. rewrite toks_empty. iClear "H3". done_with. by iApply ("H4" with "[] H1 H2").
  - destruct (lookup_lt_is_Some_2 l i) as [x Hx]; [lia|]. rewrite (drop_S _ _ _ Hx). simpl. rewrite toks_union toks_tok. iDestruct "H3" as "[H3 H5]".
    sub. iApply (cwp_own_read with "H1 H2"); [exact Hx|]. iIntros (f1) "%Hf1 H1 H2". sub. iApply (cwp_DecRef with "H3"). iIntros (f2) "%Hf2". iApply (IH with "H1 H2 H5"); [lia|]. iIntros (f3) "%Hf3 H1 H2". iApply ("H4" with "[] H1 H2"). iPureIntro. lia.
Qed.
Lemma cwp_dec_ref_loop (Q : unit -> nat -> cP) m l vs : forall h stack f,
  tok (h, inr (m, l, vs)) -∗ lift ([∗ list] s ∈ stack, ∃ o, s ↦o o) -∗ (∀ f', ⌈f <= f'⌉ -∗ Q tt f') -∗ cwp CInv (dec_ref_loop h stack) f Q.
Proof.
  induction vs as [|[[o off] n] vs IH]; iIntros (h stack f) "H1 H2 H3"; rewrite (frob_eq (dec_ref_loop _ _)); simpl; (iApply (cwp_dec with "H1"); iSplit;
    [iIntros (x f') "%Hx"; rewrite decide_False; [|tauto]; iApply (cwp_free_structs with "H2"); iIntros (f'') "%Hf"; iApply "H3"; iPureIntro; lia|]);
    iIntros (f') "%Hf H1 H4 H5"; cbn [decide].
  - cbn [holds memory_of struct_of]. iApply (cwp_own_node with "H1"). iIntros (f1) "%Hf1 H1". assert (Hlen : Z.to_nat (nBuffers (anode h (m, l, []))) = length l) by (simpl; unfold seen, len; simpl; lia).
    destruct m as [[k sp]|]; cbn [anode custom_free afree fst snd].
    + sub. unfold constbuffer_array_move_buffers_free. sub. fold (anode h (Some (k, sp), l, [])). rewrite Hlen. iApply (cwp_release with "H1 H4 [H5]"); [done|by rewrite drop_0|]. iIntros (f2) "%Hf2 H1 H4".
      cbn [anode buffers aplace fst snd base_place]. step. cbn [amem fst snd]. iApply (cwp_free_obj with "H4"). iIntros (f3) "%Hf3". done_with. iDestruct (push with "H1 H2") as "H1".
      iApply (cwp_free_structs _ (h :: stack) with "H1"). iIntros (f4) "%Hf4". iApply "H3". iPureIntro. lia.
    + sub. fold (anode h (None, l, [])). rewrite Hlen. iApply (cwp_release with "H1 H4 [H5]"); [done|by rewrite drop_0|]. iIntros (f2) "%Hf2 H1 H4". cbn [amem fst snd]. iEval (rewrite lift_emp) in "H4". iDestruct (push with "H1 H2") as "H1".
      iApply (cwp_free_structs _ (h :: stack) with "H1"). iIntros (f4) "%Hf4". iApply "H3". iPureIntro. lia.
  - cbn [holds memory_of struct_of amem fst snd]. iEval (rewrite lift_emp) in "H4". rewrite toks_tok. iApply (cwp_own_node with "H1"). iIntros (f1) "%Hf1 H1". cbn [anode custom_free afree fst snd]. iDestruct (push with "H1 H2") as "H1".
    iApply (IH with "H5 H1"). iIntros (f2) "%Hf2". iApply "H3". iPureIntro. lia.
Qed.
