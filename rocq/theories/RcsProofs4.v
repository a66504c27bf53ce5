(** Proofs for RcsProps: external_command_helper_execute, and all calls together. *)
From Verif Require Import CslRules Rc CslPool.
From Verif Require Import Common Block BlockFacts CMem CMemFacts Prog RcsModel RcsSpec RcsProofs RcsProofs2 RcsProofs3.

Lemma fgets_spec n text l rest : fgets n text = (l, rest) ->
  text = l ++ rest /\ ((exists l0, l = l0 ++ [10%Z] /\ 10%Z ∉ l0 /\ length l0 < n) \/ (10%Z ∉ l /\ length l = n) \/ (10%Z ∉ l /\ length l < n /\ rest = [])).
Proof.
  revert text l rest. induction n as [|n IH]; intros text l rest; simpl.
  - intros [= <- <-]. split; [done|]. right. left. split; [apply not_elem_of_nil|done].
  - destruct text as [|c text]; [intros [= <- <-]; split; [done|]; right; right; split; [apply not_elem_of_nil|]; simpl; split; [lia|done]|]. destruct (decide (c = 10%Z)) as [->|Hc].
    + intros [= <- <-]. split; [done|]. left. exists []. split; [done|]. split; [apply not_elem_of_nil|simpl; lia].
    + destruct (fgets n text) as [l' rest'] eqn:E. intros [= <- <-]. destruct (IH _ _ _ E) as [-> H]. split; [done|]. assert (forall l0, 10%Z ∉ l0 -> 10%Z ∉ c :: l0) as Hn. { intros l0 H0. rewrite not_elem_of_cons. split; [congruence|done]. }
      destruct H as [(l0&->&H1&H2)|[[H1 H2]|(H1&H2&->)]].
      * left. exists (c :: l0). split; [done|]. split; [by apply Hn|simpl; lia].
      * right. left. split; [by apply Hn|simpl; lia].
      * right. right. split; [by apply Hn|]. split; [simpl; lia|done].
Qed.
Lemma reads_S fuel c text : reads (S fuel) (c :: text) = let '(l, rest) := fgets (COMMAND_OUTPUT_BUFFER_SIZE - 1) (c :: text) in l :: reads fuel rest.
Proof. reflexivity. Qed.
Lemma reads_delivered_gen n fuel text : COMMAND_OUTPUT_BUFFER_SIZE = S n -> 0 < n -> length text <= fuel -> delivered n text (reads fuel text) /\ Forall (fun buf => length buf < COMMAND_OUTPUT_BUFFER_SIZE) (reads fuel text).
Proof.
  intros HB Hn. revert text. induction fuel as [|fuel IH]; intros text Hl; [destruct text; [|simpl in Hl; lia]; split; constructor|]. destruct text as [|c text]; [split; constructor|].
  rewrite reads_S. destruct (fgets _ _) as [l rest] eqn:E. apply fgets_spec in E as [Ht H]. rewrite Ht in Hl |- *. rewrite app_length in Hl. rewrite HB in H |- *. replace (S n - 1) with n in H by lia.
  assert (0 < length l) as H0. { destruct l; [|simpl; lia]. destruct H as [(l0&H&_)|[[_ H]|(_&_&->)]]; [by destruct l0|simpl in H; lia|done]. }
  destruct (IH rest) as [Hd Hf]; [lia|]. rewrite HB in Hf. destruct H as [(l0&->&H1&H2)|[[H1 H2]|(H1&H2&->)]].
  - split; [rewrite -app_assoc; by constructor|]. constructor; [rewrite app_length; simpl; lia|done].
  - split; [by constructor|]. constructor; [lia|done].
  - replace (reads fuel []) with ([] : list bytes) by (by destruct fuel). rewrite app_nil_r. split; [by constructor|]. constructor; [lia|done].
Qed.
Lemma reads_delivered text : delivered 2047 text (reads (length text) text) /\ Forall (fun buf => length buf < COMMAND_OUTPUT_BUFFER_SIZE) (reads (length text) text).
Proof. apply reads_delivered_gen; [reflexivity|apply Nat.lt_0_succ|done]. Qed.

Lemma line_cases buf : (buf_strlen buf = buf_strcspn buf /\ ~ exists line, line_in buf line) \/ (buf_strlen buf <> buf_strcspn buf /\ line_in buf (take (buf_strcspn buf) buf)).
Proof.
  induction buf as [|c b IH]; [left; split; [done|]; intros (l&c&r&H&_); by destruct l|]. unfold buf_strlen, buf_strcspn in *. simpl. destruct (Z.eqb_spec c 0) as [->|H0].
  { left. simpl. split; [done|]. intros (l&c&r&H&H1&H2&_). destruct l as [|x l]; simpl in H; injection H as <- _; [lia|]. apply H2. left. }
  simpl. destruct (Z.eqb_spec c 13) as [->|H1]; [right; simpl; split; [done|]; exists 13%Z, b; split; [done|]; split; [by left|]; split_and!; apply not_elem_of_nil|].
  simpl. destruct (Z.eqb_spec c 10) as [->|H2]; [right; simpl; split; [done|]; exists 10%Z, b; split; [done|]; split; [by right|]; split_and!; apply not_elem_of_nil|].
  destruct IH as [[IH1 IH2]|[IH1 IH2]]; [left|right].
  - split; [lia|]. intros (l&c'&r&H&H3&H4&H5&H6). destruct l as [|x l]; simpl in H; injection H as -> ->; [lia|]. rewrite not_elem_of_cons in H4. rewrite not_elem_of_cons in H5. rewrite not_elem_of_cons in H6. apply IH2. exists l, c', r. split_and!; tauto.
  - split; [lia|]. simpl. destruct IH2 as (c'&r&H&H3&H4&H5&H6). exists c', r. split; [simpl; by rewrite -H|]. split; [done|]. rewrite !not_elem_of_cons. split_and!; try done; congruence.
Qed.
Lemma strcspn_le buf : buf_strcspn buf <= length buf.
Proof. unfold buf_strcspn. induction buf as [|c b IH]; simpl; [done|]. destruct (_ || _); [lia|]. lia. Qed.

Definition lines_at (la : ptr) (l : list sref) : cP := match la with None => ⌈l = []⌉ | Some p => slots OCells p (refs_in l) end%I.
(** A new cell at the end, which gets x. *)
Lemma cwp_grow {A} (Q : A -> nat -> cP) la l (k : ptr -> code A) f :
  lines_at la l -∗ ((∀ p f', ⌈f <= f'⌉ -∗ lift (p ↦o OCells (cells_with l ++ [None])) -∗ ([∗ list] x ∈ refs_in l, own_slot x) -∗ cwp CInv (k (Some p)) f' Q) ∧ (∀ f', ⌈f < f'⌉ -∗ lines_at la l -∗ cwp CInv (k None) f' Q)) -∗
  cwp CInv (Act (grow_cells la (length l)) k) f Q.
Proof.
  iIntros "H HQ". destruct la as [p|]; simpl.
  - iDestruct "H" as "[H1 H2]". rewrite cells_refs.
    iApply (cwp_own CInv (p ↦o OCells (cells_with l))%I _ k f (fun f' x f'' => match x with Some q => ⌈f'' = f'⌉ ∗ q ↦o OCells (cells_with l ++ [None]) | None => ⌈f' < f''⌉ ∗ p ↦o OCells (cells_with l) end)%I Q with "H1").
    + intros f' Hf. iIntros "H". iApply wpi_bind. iApply (wpi_get_obj with "H"). iIntros "H". iApply wpi_bind. iApply wpi_new_obj. iSplit.
      * iIntros (q) "H1". iApply wpi_bind. iApply (wpi_free_obj with "H"). iApply wpi_ret. by iFrame "H1".
      * iApply wpi_ret. iFrame "H". iPureIntro. lia.
    + iIntros (f1 x f2) "%Hf H1". destruct x as [q|].
      * rewrite lift_sep lift_affine_pure. iDestruct "H1" as "[%Hf2 H1]". iDestruct "HQ" as "[HQ _]". iApply ("HQ" with "[] H1 H2"). iPureIntro. lia.
      * rewrite lift_sep lift_affine_pure. iDestruct "H1" as "[%Hf2 H1]". iDestruct "HQ" as "[_ HQ]". iApply "HQ"; [iPureIntro; lia|]. unfold slots. rewrite cells_refs. iFrame "H1 H2".
  - iDestruct "H" as %->. simpl. iApply cwp_new_obj. iSplit.
    + iIntros (p f1) "%Hf1 H1". iDestruct "HQ" as "[HQ _]". iApply ("HQ" with "[//] H1"). done.
    + iIntros (f1) "%Hf1". iDestruct "HQ" as "[_ HQ]". by iApply ("HQ" with "[//] [//]").
Qed.
Lemma cwp_fill {A} (Q : A -> nat -> cP) p l x (k : unit -> code A) f :
  lift (p ↦o OCells (cells_with l ++ [None])) -∗ ([∗ list] x ∈ refs_in l, own_slot x) -∗ own_slot (option_map (fun x => (fst x, TheString (snd x))) x) -∗
  (∀ f', ⌈f <= f'⌉ -∗ lines_at (Some p) (l ++ [x]) -∗ cwp CInv (k tt) f' Q) -∗ cwp CInv (Act (set_cell p (length l) (option_map fst x)) k) f Q.
Proof.
  iIntros "H1 H2 H3 HQ". iApply (cwp_set_cell OCells is_array_cells with "H1"); [rewrite app_length cells_with_length; simpl; lia|]. iIntros (f1) "%Hf1 H1". iApply ("HQ" with "[//]"). unfold lines_at, slots, refs_in. rewrite map_app. fold (refs_in l). rewrite big_sepL_app. iFrame "H2". simpl.
  iFrame "H3". unfold cells_with. rewrite map_app. fold (cells_with (refs_in l)). rewrite cells_refs. rewrite insert_app_r_alt; [|by rewrite cells_with_length]. rewrite cells_with_length Nat.sub_diag. simpl. destruct x as [[h s]|]; done.
Qed.
Lemma cwp_read_loop (Q : ptr * nat * bool -> nat -> cP) bufs : Forall (fun buf => length buf < COMMAND_OUTPUT_BUFFER_SIZE) bufs -> forall la l failed f,
  lines_at la l -∗
  (∀ la' l' failed' f', ⌈f <= f' /\ (failed = true -> failed' = true) /\
     (failed' = false -> exists lines, Forall2 line_in bufs lines /\ texts l' = texts l ++ map Some lines) /\
     (failed = false -> failed' = true -> f < f' \/ ~ exists lines, Forall2 line_in bufs lines)⌉ -∗ lines_at la' l' -∗ Q (la', length l', failed') f') -∗
  cwp CInv (read_loop bufs la (length l) failed) f Q.
Proof.
  induction 1 as [|buf bufs Hb _ IH]; intros la l failed f; iIntros "H HQ"; cbn [read_loop].
  - iApply cwp_ret. iApply upd_intro. iApply ("HQ" with "[] H"). iPureIntro. split; [done|]. split; [done|]. split; [|congruence]. intros _. exists []. split; [constructor|]. by rewrite app_nil_r.
  - destruct failed.
    { iApply (IH with "H"). iIntros (la' l' failed' f') "%H H". destruct H as (H1&H2&H3&_). iApply ("HQ" with "[] H"). iPureIntro. split; [done|]. split; [done|]. split; [|done]. rewrite H2 //. }
    destruct (line_cases buf) as [[Hc1 Hc2]|[Hc1 Hc2]].
    { rewrite decide_True; [|by left]. iApply (IH with "H"). iIntros (la' l' failed' f') "%H H". destruct H as (H1&H2&H3&_). iApply ("HQ" with "[] H"). iPureIntro. split; [done|]. split; [done|]. split; [rewrite H2 //|].
      intros _ _. right. intros (lines&Hl). inversion Hl; subst. eauto. }
    pose proof (strcspn_le buf) as Hle. rewrite decide_False; [|lia]. step. iApply (cwp_grow with "H"). iSplit.
    2:{ iIntros (f1) "%Hf1 H". step. iApply (IH with "H"). iIntros (la' l' failed' f') "%H H". destruct H as (H1&H2&H3&_). iApply ("HQ" with "[] H"). iPureIntro. split; [lia|]. split; [done|]. split; [rewrite H2 //|]. intros _ _. left. lia. }
    iIntros (p f1) "%Hf1 H1 H2". rewrite pbind_ret. set (line := take (buf_strcspn buf) buf) in *. sub. iApply cwp_create; [destruct Hc2 as (?&?&?&?&?&_); done|]. iIntros (r f2) "%Hf2 H3". destruct Hf2 as [Hf2 Hm].
    assert (fits line) as Hfit. { unfold fits, line. rewrite take_length. assert (Z.of_nat COMMAND_OUTPUT_BUFFER_SIZE = 2048)%Z as HB by reflexivity. unfold UINT64_MAX. lia. } rewrite decide_True // in Hm.
    destruct r as [h|]; step.
    + iApply (cwp_fill _ _ _ (Some (h, line)) with "H1 H2 H3"). iIntros (f3) "%Hf3 H". step. replace (S (length l)) with (length (l ++ [Some (h, line)])) by (rewrite app_length; simpl; lia). iApply (IH with "H").
      iIntros (la' l' failed' f') "%H H". destruct H as (H1&H2&H3&H4). iApply ("HQ" with "[] H"). iPureIntro. split; [lia|]. split; [done|]. split.
      * intros Hff. destruct (H3 Hff) as (lines&Hl&Ht). exists (line :: lines). split; [by constructor|]. rewrite Ht map_app -app_assoc. done.
      * intros _ Hft. destruct (H4 eq_refl Hft) as [H5|H5]; [left; lia|]. right. intros (lines&Hl). inversion Hl; subst. eauto.
    + iApply (cwp_fill _ _ _ None with "H1 H2 [H3]"); [done|]. iIntros (f3) "%Hf3 H". step. replace (S (length l)) with (length (l ++ [None])) by (rewrite app_length; simpl; lia). iApply (IH with "H").
      iIntros (la' l' failed' f') "%H H". destruct H as (H1&H2&H3&H4). iApply ("HQ" with "[] H"). iPureIntro. specialize (Hm eq_refl). split; [lia|]. split; [done|]. split; [rewrite H2 //|]. intros _ _. left. lia.
Qed.
Lemma cwp_move_lines (Q : unit -> nat -> cP) a q l n : Forall is_Some l -> forall i f, i + n = length l ->
  slots OCells q (refs_in (replicate i None ++ drop i l)) -∗ array a (take i l ++ replicate n None) -∗ (∀ f', ⌈f <= f'⌉ -∗ lift (∃ o, q ↦o o) -∗ array a l -∗ Q tt f') -∗ cwp CInv (move_lines a (Some q) i n) f Q.
Proof.
  intros Hs. induction n as [|n IH]; intros i f Hi; iIntros "H1 H2 HQ"; cbn [move_lines].
  - iApply cwp_ret. iApply upd_intro. rewrite drop_ge; [|lia]. rewrite !app_nil_r. rewrite take_ge; [|lia]. rewrite refs_replicate. iDestruct "H1" as "[H1 H3]". rewrite no_slots. iApply ("HQ" with "[//] [H1 H3] H2"). rewrite lift_exist. iExists _. iFrame "H1".
  - destruct (lookup_lt_is_Some_2 l i ltac:(lia)) as [x Hx]. rewrite Forall_lookup in Hs. destruct (Hs i x Hx) as [[h s] ->]. assert (H0 : (replicate i (None : sref) ++ drop i l) !! i = Some (Some (h, s))).
    { rewrite lookup_app_r; [|by rewrite replicate_length]. rewrite replicate_length Nat.sub_diag lookup_drop Nat.add_0_r. done. }
    assert (H1 : refs_in (replicate i (None : sref) ++ drop i l) !! i = Some (Some (h, TheString s))). { unfold refs_in. rewrite list_lookup_fmap H0. done. }
    iDestruct "H1" as "[H1 H3]". step. iApply (cwp_cell OCells is_array_cells with "H1"); [by apply cells_with_lookup|]. iIntros (f1) "%Hf1 H1". step. rewrite (big_sepL_insert_acc _ _ _ _ H1). iDestruct "H3" as "[H4 H3]".
    iApply (cwp_set_cell OCells is_array_cells with "H1"); [rewrite cells_with_length refs_length app_length replicate_length drop_length; lia|]. iIntros (f2) "%Hf2 H1". step.
    iApply (cwp_put _ a _ i h s with "H2 H4"); [rewrite app_length take_length replicate_length; lia|intros p; by rewrite pbind_ret|]. iIntros (f3) "%Hf3 H2".
    assert (E1 : <[i:=None]> (refs_in (replicate i None ++ drop i l)) = refs_in (replicate (S i) None ++ drop (S i) l)).
    { rewrite -(refs_insert _ _ None). f_equal. rewrite insert_app_r_alt; [|by rewrite replicate_length]. rewrite replicate_length Nat.sub_diag (drop_S _ _ _ Hx). cbn [list_insert insert]. replace (S i) with (i + 1) at 2 by lia. rewrite replicate_add -app_assoc. done. }
    iApply (IH with "[H1 H3] [H2]").
    + lia.
    + rewrite -E1. unfold slots. rewrite cells_with_insert. iFrame "H1". iApply ("H3" $! None). done.
    + rewrite insert_app_r_alt; [|rewrite take_length; lia]. rewrite take_length Nat.min_l; [|lia]. rewrite Nat.sub_diag. simpl. rewrite (take_S_r _ _ _ Hx) -app_assoc. iFrame "H2".
    + iIntros (f4) "%Hf4 H1 H2". iApply ("HQ" with "[] H1 H2"). iPureIntro. lia.
Qed.
Lemma texts_some l lines : texts l = map Some lines -> Forall is_Some l /\ length l = length lines.
Proof.
  intros H. split; [|apply (f_equal length) in H; by rewrite !map_length in H]. revert lines H. induction l as [|x l IH]; intros [|y ys]; simpl; try done. intros [= Hx H]. constructor; [destruct x; [by eexists|done]|by eapply IH].
Qed.
Lemma spec_execute command lines return_code popen text read_error pclose f : allowed (Execute command lines return_code popen text read_error pclose) ->
  ⊢ goal_of (Execute command lines return_code popen text read_error pclose) f.
Proof.
  intros Ha. unfold run, external_command_helper_execute. destruct command as [[|c command]|]; [step; step; by iApply (finish (Execute _ _ _ _ _ _ _))| |step; step; by iApply (finish (Execute _ _ _ _ _ _ _))].
  destruct lines; [|step; step; by iApply (finish (Execute _ _ _ _ _ _ _))]. destruct return_code; [|step; step; by iApply (finish (Execute _ _ _ _ _ _ _))].
  destruct (reads_delivered text) as [Hd Hbs]. destruct popen; cbn [negb].
  2:{ step. step. iApply (finish (Execute _ _ _ _ _ _ _)); [done| |done]. exists (reads (length text) text). split; [done|]. split; [done|]. split; [done|]. split_and!; auto. }
  set (o := Execute _ _ _ _ _ _ _). sub. sub. iApply (cwp_read_loop _ _ Hbs None [] with "[//]"). iIntros (la l failed f1) "%H H". destruct H as (Hf1&_&Hok&Hbad). specialize (Hbad eq_refl). simpl app in Hok.
  (* the end, when the lines are still there *)
  assert (forall f2 closed, f1 <= f2 -> answers o (RExecute EXTERNAL_COMMAND_ERROR None None closed) f f2 ->
    lines_at la l ⊢ cwp CInv (let* _ := match la with Some q => let* _ := release_cells q 0 (length l) in act (free_obj q) | None => Ret tt end in Ret (EXTERNAL_COMMAND_ERROR, None, None, closed))%prog f2
      (fun a f' => cwp CInv (let '(r, a0, code, closed) := a in let* l0 := look_at a0 in Ret (RExecute r l0 code closed))%prog f' (answer lib own answers o f))) as Hend.
  { intros f2 closed Hf2 Han. iIntros "H". sub. assert (forall f3, f2 <= f3 -> ⊢ cwp CInv (Ret (EXTERNAL_COMMAND_ERROR, None : ptr, None : option Z, closed)) f3 (fun a f' => cwp CInv (let '(r, a0, code, closed) := a in let* l0 := look_at a0 in Ret (RExecute r l0 code closed))%prog f' (answer lib own answers o f))) as Hlast.
    { intros f3 Hf3. iApply cwp_ret. iApply upd_intro. simpl. step. iApply (finish o); [lia| |done]. destruct Han as (bufs&A1&A2&A3&A4&A5&A6). exists bufs. split; [done|]. split; [done|]. split; [intros X1 X2 X3; destruct (A3 X1 X2 X3); [by left|right; lia]|].
      split; [done|]. split; [done|]. destruct A6 as [?|[?|[?|[?|?]]]]; auto 6. right. right. right. left. lia. }
    destruct la as [q|].
    - sub. iApply (cwp_release_all OCells with "H"); [apply is_array_cells|by rewrite refs_length|]. iIntros (f3) "%Hf3 H". iApply (cwp_free_ex with "H"). iIntros (f4) "%Hf4". iApply cwp_ret. iApply upd_intro. iApply Hlast. lia.
    - iDestruct "H" as %->. iApply cwp_ret. iApply upd_intro. by iApply Hlast. }
  destruct failed.
  { simpl. step. iApply (Hend f1 true with "H"); [done|]. exists (reads (length text) text). split; [done|]. split; [done|]. specialize (Hbad eq_refl). split; [intros _ _ X; right; destruct Hbad; [done|contradiction]|].
    split; [done|]. split; [done|]. destruct Hbad; auto 6. }
  specialize (Hok eq_refl). destruct Hok as (lines&Hlines&Htexts). cbn [negb andb orb]. destruct read_error.
  { step. iApply (Hend f1 false with "H"); [done|]. exists (reads (length text) text). split; [done|]. split; [eauto 6|]. split; [auto|]. split_and!; auto. }
  destruct (Z.eqb_spec pclose.1 0) as [Hp|Hp]; cbn [negb].
  2:{ step. iApply (Hend f1 true with "H"); [done|]. exists (reads (length text) text). split; [done|]. split; [done|]. split; [done|]. split_and!; auto 6. }
  sub. sub. iApply cwp_array_create; [lia|]. rewrite Nat2Z.id. iSplit.
  2:{ iIntros (f2) "%Hf2". iApply cwp_ret. iApply upd_intro. iApply (Hend f2 true with "H"); [lia|]. exists (reads (length text) text). split; [done|]. split; [done|]. split; [done|]. split; [done|]. split; [done|]. right. right. right. left. lia. }
  destruct (texts_some _ _ Htexts) as [Hall _].
  iIntros (a f2) "%Hf2 H1". sub. iApply (cwp_wand _ _ _ (fun _ f' => ⌈f2 <= f'⌉ ∗ lift (match la with Some q => ∃ o, q ↦o o | None => emp end) ∗ array a l)%I with "[H H1]").
  { destruct la as [q|].
    - iApply (cwp_move_lines _ a q l with "[H] [H1]"); [done|done|by rewrite drop_0|done|]. iIntros (f') "%Hf H1 H2". iFrame "H1 H2". done.
    - iDestruct "H" as %->. simpl. iApply cwp_ret. iApply upd_intro. iFrame "H1". rewrite lift_emp. done. }
  iIntros (x f3) "_ [%Hf3 [H1 H2]]". sub. iApply (cwp_wand _ _ _ (fun _ f' => ⌈f3 <= f'⌉)%I with "[H1]").
  { destruct la as [q|].
    - iApply (cwp_free_ex with "H1"). iIntros (f') "%Hf". iApply cwp_ret. iApply upd_intro. done.
    - rewrite lift_emp. iApply cwp_ret. iApply upd_intro. done. }
  iIntros (y f4) "_ %Hf4". iApply cwp_ret. iApply upd_intro. simpl. step. iApply cwp_ret. iApply upd_intro. sub. iApply (cwp_look_at with "H2"). iIntros (f5) "%Hf5 H2". iApply (finish o); [lia| |simpl; rewrite hold_one; iFrame "H2"].
  exists (reads (length text) text). split; [done|]. split; [done|]. split; [done|]. split; [done|]. split; [done|]. split; [done|]. split; [done|]. exists a, l, lines. done.
Qed.

Lemma spec o f : allowed o -> hold (uses o) ⊢ goal_of o f.
Proof.
  intros Ha. destruct o; cbn [uses].
  - iIntros "_". iApply spec_malloc.
  - rewrite hold_one. apply spec_free.
  - iIntros "_". by iApply spec_create.
  - iIntros "_". by iApply spec_format.
  - by apply spec_move.
  - rewrite hold_one. by apply spec_custom.
  - apply spec_recreate.
  - rewrite hold_one. apply spec_read.
  - rewrite hold_one. apply spec_assign.
  - rewrite hold_one. apply spec_release.
  - apply spec_ptr.
  - rewrite hold_one. apply spec_read_ptr.
  - iIntros "_". by iApply spec_array_create.
  - apply spec_array_destroy.
  - rewrite hold_one. apply spec_array_read.
  - by apply spec_array_put.
  - by apply spec_split.
  - iIntros "_". by iApply spec_tuple_create.
  - by apply spec_tuple_destroy.
  - by apply spec_tuple_put.
  - rewrite hold_one. apply spec_tuple_read.
  - iIntros "_". by iApply spec_execute.
Qed.
