(** Proofs for RcsProps: strings, pointers, references, arrays of handles. *)
From Verif Require Import CslRules Rc CslPool.
From Verif Require Import Common Block BlockFacts CMem CMemFacts Prog RcsModel RcsSpec.

(** What a reference tells for good: a copied string; a moved block; a block with custom free, and where the string is in it; a pointer, the context, and what is in the two blocks when they are freed with it. *)
Notation val := (bytes + (positive * bytes) + (positive * bytes * nat) + (positive * positive * option (bytes * bytes)))%type.
Definition val_eq_def : EqDecision val := _.
Global Instance val_eq : EqDecision val.
Proof. exact val_eq_def. Qed.
Global Instance val_countable : Countable val.
Proof. apply (@inj_countable' val val_eq_def _ val val_eq (fun x => x) (fun x => x)). done. Qed.
Notation cP := (cPropI obj (positive * val)).
Definition struct_of (v : val) (n : Z) : obj :=
  match v with
  | inl (inl (inl s)) => OStr AOwn (Copied (bytes_block (s ++ [0%Z]))) n
  | inl (inl (inr (p, l))) => OStr (ABlock p 0) Moved n
  | inl (inr (q, l, off)) => OStr (ABlock q off) (WithCustomFree q) n
  | inr (p, c, x) => OPtr p (if x then true else false) c n
  end.
Definition memory_of (v : val) : hPropI obj :=
  match v with
  | inl (inl (inl s)) => emp
  | inl (inl (inr (p, l))) => p ↦b bytes_block l
  | inl (inr (q, l, off)) => q ↦b bytes_block l
  | inr (p, c, Some (l, m)) => p ↦b bytes_block l ∗ c ↦b bytes_block m
  | inr (p, c, None) => emp
  end%I.
Definition what_of (v : val) : what :=
  match v with
  | inl (inl (inl s)) => TheString s
  | inl (inl (inr (p, l))) => TheString (string_in l)
  | inl (inr (q, l, off)) => TheString (string_in (drop off l))
  | inr (p, c, x) => ThePointer p
  end.
Definition wf (v : val) : Prop :=
  match v with
  | inl (inl (inl s)) => no_zero s
  | inl (inl (inr (p, l))) => 0%Z ∈ l
  | inl (inr (q, l, off)) => 0%Z ∈ drop off l
  | inr _ => True
  end.
Definition repr (h : positive) (v : val) (n : nat) : hPropI obj := (h ↦o struct_of v (Z.of_nat n) ∗ memory_of v)%I.
Definition holds (v : val) : gmultiset (positive * val) := ∅.
Notation CInv := (RInv repr holds).

Lemma repr_excl h v n v' n' : repr h v n ∗ repr h v' n' ⊢ False.
Proof. iIntros "[[H1 _] [H2 _]]". by iDestruct (obj_ne with "H1 H2") as %?. Qed.

Lemma cstr_in l : 0%Z ∈ l -> cstr (bytes_block l) = Some (string_in l).
Proof.
  induction l as [|c l IH]; [by intros ?%elem_of_nil|]. intros Hin. simpl. destruct (decide (c = 0%Z)) as [|Hne]; [done|]. apply elem_of_cons in Hin as [?|Hin]; [congruence|]. unfold bytes_block in IH. by rewrite IH.
Qed.
Lemma string_in_app s l : no_zero s -> string_in (s ++ 0%Z :: l) = s.
Proof. unfold no_zero. induction s as [|c s IH]; [done|]. rewrite not_elem_of_cons. intros [H1 H2]. simpl. rewrite decide_False; [|congruence]. by rewrite IH. Qed.
Lemma string_in_no_zero l : no_zero (string_in l).
Proof. unfold no_zero. induction l as [|c l IH]; simpl; [apply not_elem_of_nil|]. destruct (decide (c = 0%Z)); [apply not_elem_of_nil|]. rewrite not_elem_of_cons. done. Qed.
Lemma what_no_zero v s : wf v -> what_of v = TheString s -> no_zero s.
Proof. destruct v as [[[s'|[p l]]|[[q l] off]]|[[p c] x]]; simpl; intros Hw [= <-]; [done|apply string_in_no_zero..]. Qed.

Lemma wpi_block_at p b off f (K : block -> nat -> hPropI obj) :
  p ↦b b -∗ (p ↦b b -∗ K (drop off b) f) -∗ wpi (fun s : cst => match mem s !! p with Some b => Done (drop off b, s) | None => Undef end) f K.
Proof.
  iIntros "H1 H2". iStopProof. apply wpi_intro. intros r fr orc H Hd. destruct (blk_split _ _ _ _ _ H Hd) as (r2&HK&Hd2&Hp&Hm&Ho).
  rewrite Hm Ho. unfold wp. cbn [mem]. rewrite lookup_insert. destruct (blk_join _ _ _ _ _ HK Hd2 Hp) as (r'&?&?&?&?). exists r'. simpl. split_and!; auto.
Qed.
Lemma wpi_string_of h v n s f : wf v -> what_of v = TheString s ->
  repr h v n ⊢ wpi (string_of h) f (fun x f' => ⌈x = s /\ f' = f⌉ ∗ repr h v n).
Proof.
  intros Hw Hs. iIntros "[H1 H2]". unfold string_of. iApply wpi_bind. iApply (wpi_get_obj with "H1"). iIntros "H1". destruct v as [[[s'|[p l]]|[[q l] off]]|[[p c] x]]; simpl in *; try discriminate Hs; injection Hs as <-.
  - iApply wpi_bind. iApply wpi_ret. rewrite cstr_in; [|set_solver]. rewrite (string_in_app s' []) //. iApply wpi_ret. unfold repr. simpl. iFrame "H1". iSplitR; done.
  - iApply wpi_bind. iApply (wpi_block_at with "H2"). iIntros "H2". rewrite drop_0 cstr_in //. iApply wpi_ret. unfold repr. simpl. iFrame "H1 H2". done.
  - iApply wpi_bind. iApply (wpi_block_at with "H2"). iIntros "H2". unfold bytes_block at 1. rewrite -fmap_drop. fold (bytes_block (drop off l)). rewrite cstr_in //. iApply wpi_ret. unfold repr. simpl. iFrame "H1 H2". done.
Qed.

Section rules.
Context {A : Type} (Q : A -> nat -> cP).
Lemma cwp_look h v (k : obj -> code A) f :
  tok (h, v) -∗ (∀ n f', ⌈f <= f'⌉ -∗ tok (h, v) -∗ cwp CInv (k (struct_of v n)) f' Q) -∗ cwp CInv (Act (get_obj h) k) f Q.
Proof.
  iIntros "H1 H2". iApply (rc_read repr holds repr_excl _ _ (fun x => exists n, x = struct_of v n) (h, v) h v with "H1"); [constructor| |].
  - intros n f' _. iIntros "[H1 H2]". iApply (wpi_get_obj with "H1"). iIntros "H1". iFrame "H1 H2". iPureIntro. split; [by eexists|done].
  - iIntros (x f') "%Hx H1". destruct Hx as [Hf [n ->]]. by iApply ("H2" with "[//] H1").
Qed.
Lemma cwp_string_tok h v s (k : bytes -> code A) f : wf v -> what_of v = TheString s ->
  tok (h, v) -∗ (∀ f', ⌈f <= f'⌉ -∗ tok (h, v) -∗ cwp CInv (k s) f' Q) -∗ cwp CInv (Act (string_of h) k) f Q.
Proof.
  intros Hw Hs. iIntros "H1 H2". iApply (rc_read repr holds repr_excl _ _ (fun x => x = s) (h, v) h v with "H1"); [constructor| |].
  - intros n f' _. by apply wpi_string_of.
  - iIntros (x f') "%Hx H1". destruct Hx as [Hf ->]. by iApply ("H2" with "[//] H1").
Qed.
Lemma wpi_add_count h v n d f (K : Z -> nat -> hPropI obj) :
  h ↦o struct_of v n -∗ (h ↦o struct_of v (n + d)%Z -∗ K (n + d)%Z f) -∗ wpi (add_count d h) f K.
Proof.
  iIntros "H1 H2". unfold add_count. iApply wpi_bind. iApply (wpi_get_obj with "H1"). iIntros "H1".
  destruct v as [[[s'|[p l]]|[[q l] off]]|[[p c] x]]; simpl; iApply wpi_bind; iApply (wpi_set_obj with "H1"); iIntros "H1"; iApply wpi_ret; by iApply "H2".
Qed.
Lemma cwp_inc h v (k : Z -> code A) f :
  tok (h, v) -∗ (∀ x f', ⌈f <= f'⌉ -∗ tok (h, v) -∗ tok (h, v) -∗ cwp CInv (k x) f' Q) -∗ cwp CInv (Act (add_count 1 h) k) f Q.
Proof.
  iIntros "H1 H2". iApply (rc_count repr holds repr_excl _ _ (fun x j e => j = 2 /\ e = false) h v emp%I with "H1").
  - intros n f' Hn. iIntros "[H1 H2]". iApply (wpi_add_count with "H1"). iIntros "H1". iExists 2, (S n). iSplit; [iPureIntro; split; [split; [done|by rewrite bool_decide_eq_false_2]|split; [done|lia]]|].
    unfold repr. iFrame "H2". simpl. replace (Z.of_nat n + 1)%Z with (Z.of_nat (S n)) by lia. done.
  - iIntros (x j e f') "%Hx H1". destruct Hx as (Hf&->&->). simpl. rewrite right_id_L toks_union toks_tok. iDestruct "H1" as "[H1 H3]". iApply ("H2" with "[//] H1 H3").
Qed.
(** Giving up a reference: the last one gets the struct. *)
Lemma cwp_dec h v (k : Z -> code A) f :
  tok (h, v) -∗ ((∀ x f', ⌈f <= f' /\ x <> 0%Z⌉ -∗ cwp CInv (k x) f' Q) ∧ (∀ f', ⌈f <= f'⌉ -∗ lift (h ↦o struct_of v 0) -∗ lift (memory_of v) -∗ cwp CInv (k 0%Z) f' Q)) -∗
  cwp CInv (Act (add_count (-1) h) k) f Q.
Proof.
  iIntros "H1 H2". iApply (rc_count repr holds repr_excl _ _ (fun x j e => j = 0 /\ (e = true <-> x = 0%Z)) h v (h ↦o struct_of v 0 ∗ memory_of v)%I with "H1").
  - intros n f' Hn. iIntros "[H1 H2]". iApply (wpi_add_count with "H1"). iIntros "H1". iExists 0, (n - 1). iSplit; [iPureIntro; split; [split; [done|]|split; [done|lia]]|].
    { rewrite bool_decide_eq_true. lia. }
    destruct (decide (n - 1 = 0)) as [E|E]; unfold repr; iFrame "H2".
    + replace (Z.of_nat n + -1)%Z with 0%Z by lia. done.
    + replace (Z.of_nat n + -1)%Z with (Z.of_nat (n - 1)) by lia. done.
  - iIntros (x j e f') "%Hx H1". destruct Hx as (Hf&->&He). simpl. destruct e.
    + assert (x = 0%Z) as -> by by apply He. rewrite lift_sep. iDestruct "H1" as "[[H1 H3] H4]". unfold holds. iEval (rewrite toks_empty) in "H4". iDestruct "H2" as "[_ H2]". iApply ("H2" with "[//] H1 H3").
    + iEval (rewrite toks_empty) in "H1". iDestruct "H2" as "[H2 _]". iApply "H2". iPureIntro. split; [done|]. intros ->. destruct He as [_ He]. by discriminate He.
Qed.
End rules.
Ltac sub := iApply cwp_bind.
Ltac step := unfold act; repeat first [rewrite pbind_act | rewrite pbind_ret | progress cbn beta iota].

(** A reference. *)
Definition own_ref (h : positive) (w : what) : cP := (∃ v, ⌈wf v /\ what_of v = w⌉ ∗ tok (h, v))%I.
Definition own_slot (x : ref) : cP := match x with None => emp | Some (h, w) => own_ref h w end%I.
Lemma cwp_dec_ref (Q : unit -> nat -> cP) h w f : own_ref h w -∗ (∀ f', ⌈f <= f'⌉ -∗ Q tt f') -∗ cwp CInv (dec_ref h) f Q.
Proof.
  iIntros "(%v&%Hv&H) HQ". unfold dec_ref. step. iApply (cwp_dec with "H"). iSplit.
  - iIntros (x f1) "%Hf1". step. rewrite decide_False; [|tauto]. iApply cwp_ret. iApply upd_intro. iApply "HQ". iPureIntro. tauto.
  - iIntros (f1) "%Hf1 H1 H2". step. cbn [decide]. step. iApply (cwp_get_obj with "H1"). iIntros (f2) "%Hf2 H1". step. sub.
    assert (forall P f3, f2 <= f3 -> P ⊢ lift (h ↦o struct_of v 0) -∗ (∀ f', ⌈f <= f'⌉ -∗ Q tt f') -∗ P ∗ cwp CInv (Act (free_obj h) Ret) f3 Q) as Hend.
    { intros P f3 Hf3. iIntros "HP H1 HQ". iFrame "HP". iApply (cwp_free_obj with "H1"). iIntros (f4) "%Hf4". iApply cwp_ret. iApply upd_intro. iApply "HQ". iPureIntro. lia. }
    destruct v as [[[s'|[p l]]|[[q l] off]]|[[p c] [[l m]|]]]; cbn [memory_of struct_of dispose]; step.
    + iEval (rewrite lift_emp) in "H2". iApply cwp_ret. iApply upd_intro. iDestruct (Hend emp%I f2 with "[//] H1 HQ") as "[_ H]"; [lia|]. iApply "H".
    + iApply (cwp_free with "H2"). iIntros (f3) "%Hf3". iApply cwp_ret. iApply upd_intro. iDestruct (Hend emp%I f3 with "[//] H1 HQ") as "[_ H]"; [lia|]. iApply "H".
    + iApply (cwp_free with "H2"). iIntros (f3) "%Hf3". iApply cwp_ret. iApply upd_intro. iDestruct (Hend emp%I f3 with "[//] H1 HQ") as "[_ H]"; [lia|]. iApply "H".
    + iEval (rewrite lift_sep) in "H2". iDestruct "H2" as "[H2 H3]". iApply (cwp_free with "H3"). iIntros (f3) "%Hf3". step. iApply (cwp_free with "H2"). iIntros (f4) "%Hf4". iApply cwp_ret. iApply upd_intro. iDestruct (Hend emp%I f4 with "[//] H1 HQ") as "[_ H]"; [lia|]. iApply "H".
    + iEval (rewrite lift_emp) in "H2". iApply cwp_ret. iApply upd_intro. iDestruct (Hend emp%I f2 with "[//] H1 HQ") as "[_ H]"; [lia|]. iApply "H".
Qed.
Lemma cwp_inc_ref (Q : unit -> nat -> cP) h w f : own_ref h w -∗ (∀ f', ⌈f <= f'⌉ -∗ own_ref h w -∗ own_ref h w -∗ Q tt f') -∗ cwp CInv (inc_ref h) f Q.
Proof.
  iIntros "(%v&%Hv&H) HQ". unfold inc_ref. step. iApply (cwp_inc with "H"). iIntros (x f1) "%Hf1 H1 H2". step. iApply cwp_ret. iApply upd_intro. iApply ("HQ" with "[//] [H1] [H2]"); iExists v; [iFrame "H1"|iFrame "H2"]; done.
Qed.
Lemma cwp_string {A} (Q : A -> nat -> cP) h s (k : bytes -> code A) f :
  own_ref h (TheString s) -∗ (∀ f', ⌈f <= f'⌉ -∗ own_ref h (TheString s) -∗ cwp CInv (k s) f' Q) -∗ cwp CInv (Act (string_of h) k) f Q.
Proof.
  iIntros "(%v&%Hv&H) HQ". destruct Hv as [Hw Hs]. iApply (cwp_string_tok with "H"); [done|done|]. iIntros (f1) "%Hf1 H". iApply ("HQ" with "[//]"). iExists v. by iFrame "H".
Qed.
Lemma share_new h v w : wf v -> what_of v = w -> lift (h ↦o struct_of v 1) -∗ lift (memory_of v) -∗ upd CInv (own_ref h w).
Proof.
  intros Hw Hc. iIntros "H1 H2". iMod (rc_share repr holds repr_excl h v with "[H1 H2]") as "H".
  - unfold holds. rewrite toks_empty. iSplitL; [|done]. unfold repr. rewrite lift_sep. iFrame "H1 H2".
  - iApply upd_intro. iExists v. by iFrame "H".
Qed.

Lemma no_slots n : ([∗ list] x ∈ replicate n (None : ref), own_slot x) ⊣⊢ emp.
Proof. induction n as [|n IH]; simpl; [done|]. rewrite IH. apply left_id. apply _. Qed.

(** Arrays of handles: [mk] makes the struct of its cells. *)
Definition is_array (mk : list (option ptr) -> obj) : Prop := forall c, cells_of (mk c) = Some c /\ forall c', with_cells (mk c) c' = mk c'.
Lemma is_array_cells : is_array OCells.
Proof. done. Qed.
Lemma is_array_tup n : is_array (OTup n).
Proof. done. Qed.
Section cells.
Context (mk : list (option ptr) -> obj) (Hmk : is_array mk).
Lemma cwp_cell {A} (Q : A -> nat -> cP) p c i x (k : ptr -> code A) f : c !! i = Some (Some x) ->
  lift (p ↦o mk c) -∗ (∀ f', ⌈f <= f'⌉ -∗ lift (p ↦o mk c) -∗ cwp CInv (k x) f' Q) -∗ cwp CInv (Act (cell p i) k) f Q.
Proof.
  intros Hi. iIntros "H1 H2". iApply (cwp_det _ _ _ _ (fun y => y = x) _ (p ↦o mk c)%I with "H1").
  - intros f'. iIntros "H". unfold cell. iApply wpi_bind. iApply (wpi_get_obj with "H"). iIntros "H". destruct (Hmk c) as [-> _]. rewrite Hi. iApply wpi_ret. by iFrame "H".
  - iIntros (y f') "%Hy H". destruct Hy as [Hf ->]. by iApply ("H2" with "[//] H").
Qed.
Lemma cwp_set_cell {A} (Q : A -> nat -> cP) p c i x (k : unit -> code A) f : i < length c ->
  lift (p ↦o mk c) -∗ (∀ f', ⌈f <= f'⌉ -∗ lift (p ↦o mk (<[i := Some x]> c)) -∗ cwp CInv (k tt) f' Q) -∗ cwp CInv (Act (set_cell p i x) k) f Q.
Proof.
  intros Hi. iIntros "H1 H2". iApply (cwp_det _ _ _ _ (fun _ => True) _ (p ↦o mk (<[i := Some x]> c))%I with "H1").
  - intros f'. iIntros "H". unfold set_cell. iApply wpi_bind. iApply (wpi_get_obj with "H"). iIntros "H". destruct (Hmk c) as [-> ->]. rewrite decide_True //. iApply (wpi_set_obj with "H"). iIntros "H". by iFrame "H".
  - iIntros ([] f') "%Hy H". destruct Hy as [Hf _]. by iApply ("H2" with "[//] H").
Qed.
(** The array at p with the handles l, and the references. *)
Definition slots (p : positive) (l : list ref) : cP := (lift (p ↦o mk (cells_with l)) ∗ [∗ list] x ∈ l, own_slot x)%I.
Lemma cells_with_lookup {B} (l : list (option (positive * B))) i x : l !! i = Some x -> cells_with l !! i = Some (Some (option_map fst x)).
Proof. intros Hi. unfold cells_with. by rewrite list_lookup_fmap Hi. Qed.
Lemma cells_with_length {B} (l : list (option (positive * B))) : length (cells_with l) = length l.
Proof. apply fmap_length. Qed.
Lemma cells_with_insert {B} (l : list (option (positive * B))) i x : cells_with (<[i := x]> l) = <[i := Some (option_map fst x)]> (cells_with l).
Proof. apply (list_fmap_insert (fun x : option (positive * B) => Some (option_map fst x))). Qed.
Lemma cwp_assign_null (Q : unit -> nat -> cP) p (l : list ref) i f : i < length l ->
  slots p l -∗ (∀ f', ⌈f <= f'⌉ -∗ slots p (<[i := None]> l) -∗ Q tt f') -∗ cwp CInv (assign_null p i) f Q.
Proof.
  intros Hi. destruct (lookup_lt_is_Some_2 l i Hi) as [x Hx]. iIntros "[H1 H2] HQ". unfold assign_null. step. iApply (cwp_cell with "H1"); [by apply cells_with_lookup|]. iIntros (f1) "%Hf1 H1". destruct x as [[h w]|]; simpl; step.
  - rewrite (big_sepL_insert_acc _ _ _ _ Hx). iDestruct "H2" as "[H3 H2]". sub. iApply (cwp_dec_ref with "H3"). iIntros (f2) "%Hf2". step. iApply (cwp_set_cell with "H1"); [by rewrite cells_with_length|]. iIntros (f3) "%Hf3 H1".
    iApply cwp_ret. iApply upd_intro. iApply "HQ"; [iPureIntro; lia|]. unfold slots. rewrite cells_with_insert. iFrame "H1". iApply ("H2" $! None). done.
  - iApply cwp_ret. iApply upd_intro. iApply "HQ"; [done|]. rewrite list_insert_id //. iFrame "H1 H2".
Qed.
Lemma cwp_move_to_cell (Q : unit -> nat -> cP) p (l : list ref) i h w f : i < length l ->
  slots p l -∗ own_ref h w -∗ (∀ f', ⌈f <= f'⌉ -∗ slots p (<[i := Some (h, w)]> l) -∗ Q tt f') -∗ cwp CInv (move_to_cell p i (Some h)) f Q.
Proof.
  intros Hi. destruct (lookup_lt_is_Some_2 l i Hi) as [x Hx]. iIntros "[H1 H2] H4 HQ". unfold move_to_cell. step. iApply (cwp_cell with "H1"); [by apply cells_with_lookup|]. iIntros (f1) "%Hf1 H1".
  rewrite (big_sepL_insert_acc _ _ _ _ Hx). iDestruct "H2" as "[H3 H2]". destruct x as [[h' w']|]; simpl; step.
  - sub. iApply (cwp_dec_ref with "H3"). iIntros (f2) "%Hf2". iApply (cwp_set_cell with "H1"); [by rewrite cells_with_length|]. iIntros (f3) "%Hf3 H1".
    iApply cwp_ret. iApply upd_intro. iApply "HQ"; [iPureIntro; lia|]. unfold slots. rewrite cells_with_insert. iFrame "H1". iApply ("H2" $! (Some (h, w))). iFrame "H4".
  - iApply (cwp_set_cell with "H1"); [by rewrite cells_with_length|]. iIntros (f3) "%Hf3 H1".
    iApply cwp_ret. iApply upd_intro. iApply "HQ"; [iPureIntro; lia|]. unfold slots. rewrite cells_with_insert. iFrame "H1". iApply ("H2" $! (Some (h, w))). iFrame "H4".
Qed.
Lemma cwp_init_cells (Q : unit -> nat -> cP) p c i n f : i + n <= length c ->
  lift (p ↦o mk c) -∗ (∀ f', ⌈f <= f'⌉ -∗ lift (p ↦o mk (take i c ++ replicate n (Some None) ++ drop (i + n) c)) -∗ Q tt f') -∗ cwp CInv (init_cells p i n) f Q.
Proof.
  revert c i f. induction n as [|n IH]; intros c i f Hl; iIntros "H HQ"; simpl.
  - iApply cwp_ret. iApply upd_intro. iApply ("HQ" with "[//]"). rewrite Nat.add_0_r take_drop. done.
  - step. iApply (cwp_set_cell with "H"); [lia|]. iIntros (f1) "%Hf1 H". step. iApply (IH with "H"); [rewrite insert_length; lia|]. iIntros (f2) "%Hf2 H". iApply "HQ"; [iPureIntro; lia|].
    replace (take i c ++ Some None :: replicate n (Some None) ++ drop (i + S n) c) with (take (S i) (<[i:=Some None]> c) ++ replicate n (Some None) ++ drop (S i + n) (<[i:=Some None]> c)); [done|].
    rewrite (take_S_r _ _ (Some None)); [|apply list_lookup_insert; lia]. rewrite take_insert; [|lia]. rewrite drop_insert_gt; [|lia]. rewrite -app_assoc. simpl. by rewrite Nat.add_succ_r.
Qed.
Lemma cwp_release_cells (Q : unit -> nat -> cP) p (l : list ref) i n f : i + n <= length l ->
  slots p l -∗ (∀ f', ⌈f <= f'⌉ -∗ slots p (take i l ++ replicate n None ++ drop (i + n) l) -∗ Q tt f') -∗ cwp CInv (release_cells p i n) f Q.
Proof.
  revert l i f. induction n as [|n IH]; intros l i f Hl; iIntros "H HQ"; simpl.
  - iApply cwp_ret. iApply upd_intro. iApply ("HQ" with "[//]"). rewrite Nat.add_0_r take_drop. done.
  - sub. iApply (cwp_assign_null with "H"); [lia|]. iIntros (f1) "%Hf1 H". iApply (IH with "H"); [rewrite insert_length; lia|]. iIntros (f2) "%Hf2 H". iApply "HQ"; [iPureIntro; lia|].
    replace (take i l ++ None :: replicate n None ++ drop (i + S n) l) with (take (S i) (<[i:=None]> l) ++ replicate n None ++ drop (S i + n) (<[i:=None]> l)); [done|].
    rewrite (take_S_r _ _ None); [|apply list_lookup_insert; lia]. rewrite take_insert; [|lia]. rewrite drop_insert_gt; [|lia]. rewrite -app_assoc. simpl. by rewrite Nat.add_succ_r.
Qed.
Lemma cwp_release_all (Q : unit -> nat -> cP) p (l : list ref) n f : n = length l ->
  slots p l -∗ (∀ f', ⌈f <= f'⌉ -∗ lift (∃ o, p ↦o o) -∗ Q tt f') -∗ cwp CInv (release_cells p 0 n) f Q.
Proof.
  intros ->. iIntros "H HQ". iApply (cwp_release_cells with "H"); [done|]. iIntros (f') "%Hf H". iApply ("HQ" with "[//]"). simpl. rewrite drop_all app_nil_r. iDestruct "H" as "[H1 H2]". rewrite no_slots. iClear "H2". rewrite lift_exist. iExists _. iFrame "H1".
Qed.
End cells.
