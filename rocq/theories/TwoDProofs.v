(** Proofs about TwoDModel.v. *)
From Verif Require Import SepAll.
From Verif Require Import Common Block CMem CArr TwoDModel TwoDSpec.
Local Open Scope Z_scope.
Local Open Scope cmonad_scope.

Notation iP := (hPropI obj).
(** The row behind a pointer. *)
Definition row_at (n : Z) (p : ptr) (c : option (list (option Z))) : iP :=
  match p, c with
  | Some p, Some c => arr_at p c ∗ ⌈Z.of_nat (length c) = n⌉
  | None, None => emp
  | _, _ => ⌈False⌉
  end%I.
Definition rows_at (t : twod) (ps : list ptr) : iP := ([∗ list] i ↦ p ∈ ps, row_at (acols t) p (content t !! Z.of_nat i))%I.
Definition ok (t : twod) : Prop := is_u32 (arows t) /\ is_u32 (acols t) /\ forall i, is_Some (content t !! i) -> 0 <= i < arows t.
Definition is_d (h : positive) (t : twod) : iP :=
  (∃ ps, h ↦o OTwoD (DData (arows t) (acols t) (Some <$> ps)) ∗ rows_at t ps ∗ ⌈ok t /\ Z.of_nat (length ps) = arows t⌉)%I.
Notation all := (all_of is_d).
Lemma is_d_excl h t t' : is_d h t -∗ is_d h t' -∗ False.
Proof. iIntros "(%&H1&_) (%&H2&_)". iDestruct (obj_ne with "H1 H2") as %[]. done. Qed.

Lemma wpi_get_d h t f (Q : ddata -> nat -> iP) : h ↦o OTwoD t -∗ (h ↦o OTwoD t -∗ Q t f) -∗ wpi (get_d h) f Q.
Proof. iIntros "H1 H2". iApply wpi_bind. iApply (wpi_get_obj with "H1"). iIntros "H1". iApply wpi_ret. by iApply "H2". Qed.
Lemma wpi_set_d h t t' f (Q : unit -> nat -> iP) : h ↦o OTwoD t -∗ (h ↦o OTwoD t' -∗ Q tt f) -∗ wpi (set_d h t') f Q.
Proof. iIntros "H1 H2". iApply wpi_bind. iApply (wpi_get_d with "H1"). iIntros "H1". by iApply (wpi_set_obj with "H1"). Qed.
Lemma wpi_free_d h t f (Q : unit -> nat -> iP) : h ↦o OTwoD t -∗ Q tt f -∗ wpi (free_d h) f Q.
Proof. iIntros "H1 H2". iApply wpi_bind. iApply (wpi_get_d with "H1"). iIntros "H1". by iApply (wpi_free_obj with "H1"). Qed.
Lemma wpi_row_get h r c ps i p f (Q : ptr -> nat -> iP) : ps !! Z.to_nat i = Some p ->
  h ↦o OTwoD (DData r c (Some <$> ps)) -∗ (h ↦o OTwoD (DData r c (Some <$> ps)) -∗ Q p f) -∗ wpi (row_get h i) f Q.
Proof. iIntros (Hi) "H1 H2". iApply wpi_bind. iApply (wpi_get_d with "H1"). iIntros "H1". simpl. rewrite list_lookup_fmap Hi. simpl. iApply wpi_ret. by iApply "H2". Qed.
Lemma wpi_row_set h r c ps i p f (Q : unit -> nat -> iP) : (Z.to_nat i < length ps)%nat ->
  h ↦o OTwoD (DData r c ps) -∗ (h ↦o OTwoD (DData r c (<[Z.to_nat i := Some p]> ps)) -∗ Q tt f) -∗ wpi (row_set h i p) f Q.
Proof. iIntros (Hi) "H1 H2". iApply wpi_bind. iApply (wpi_get_d with "H1"). iIntros "H1". simpl. rewrite decide_True //. by iApply (wpi_set_d with "H1"). Qed.

Lemma wpi_clear_rows h r c f (Q : unit -> nat -> iP) n : forall i ps, length ps = (i + n)%nat ->
  h ↦o OTwoD (DData r c ps) -∗ (h ↦o OTwoD (DData r c (take i ps ++ replicate n (Some None))) -∗ Q tt f) -∗ wpi (clear_rows h i n) f Q.
Proof.
  induction n as [|n IH]; intros i ps Hl; iIntros "H1 H2".
  - iApply wpi_ret. rewrite /= app_nil_r firstn_all2; last lia. by iApply "H2".
  - iApply wpi_bind. iApply (wpi_row_set with "H1"); [lia|]. iIntros "H1". rewrite Nat2Z.id. iApply (IH with "H1"); [rewrite insert_length; lia|]. iIntros "H1". iApply "H2".
    assert (take (S i) (<[i := Some None]> ps) = take i ps ++ [Some None]) as ->.
    { erewrite take_S_r; [|apply list_lookup_insert; lia]. rewrite take_insert //. }
    by rewrite -app_assoc.
Qed.
(** Freeing the rows from index i on. *)
Lemma wpi_free_rows h r c ps cs (m : gmap Z (list (option Z))) f (Q : unit -> nat -> iP) n : forall i, (i + n = length ps)%nat ->
  h ↦o OTwoD (DData r c (Some <$> ps)) -∗ ([∗ list] k ↦ p ∈ drop i ps, row_at cs p (m !! Z.of_nat (i + k))) -∗
  (h ↦o OTwoD (DData r c (Some <$> ps)) -∗ Q tt f) -∗ wpi (free_rows h i n) f Q.
Proof.
  induction n as [|n IH]; intros i Hl; iIntros "H1 Hr H2".
  - rewrite drop_ge; last lia. simpl. iApply wpi_ret. iDestruct "Hr" as "_". by iApply "H2".
  - destruct (lookup_lt_is_Some_2 ps i) as [p Hp]; [lia|]. rewrite (drop_S _ _ _ Hp). iDestruct "Hr" as "[Hp Hr]". rewrite Nat.add_0_r.
    iApply wpi_bind. iApply (wpi_row_get with "H1"); [by rewrite Nat2Z.id|]. iIntros "H1".
    iApply wpi_bind. iApply (wpi_wand _ _ (fun _ f' => ⌈f' = f⌉)%I with "[Hp]").
    { destruct p as [p|], (m !! Z.of_nat i); simpl; try by iDestruct "Hp" as %[].
      - iDestruct "Hp" as "[Hp _]". iApply (wpi_arr_free with "Hp"). done.
      - iApply wpi_ret. done. }
    iIntros (? f') "_ %E". rewrite E. iApply (IH (S i) with "H1 [Hr] H2"); [lia|]. iApply (big_sepL_mono with "Hr"). intros k q _. simpl. replace (i + S k)%nat with (S (i + k)) by lia. done.
Qed.
Lemma size_2_none n sz : size_2 n sz = None -> UINT64_MAX < n * sz.
Proof. unfold size_2. destruct (decide _); [done|lia]. Qed.

(** Taking out row i. *)
#[local] Arguments set_row : simpl never.
Lemma rows_open t ps i p : ps !! Z.to_nat i = Some p -> 0 <= i ->
  rows_at t ps ⊢ row_at (acols t) p (content t !! i) ∗ ∀ p' c', row_at (acols t) p' c' -∗ rows_at (set_row t i c') (<[Z.to_nat i := p']> ps).
Proof.
  intros Hp Hi. iIntros "H". unfold rows_at. rewrite -{1}(take_drop_middle _ _ _ Hp) big_sepL_app big_sepL_cons. iDestruct "H" as "(H1&H2&H3)".
  assert (length (take (Z.to_nat i) ps) = Z.to_nat i) as El. { rewrite take_length. apply lookup_lt_Some in Hp. lia. }
  rewrite El Nat.add_0_r Z2Nat.id //. iFrame "H2". iIntros (p' c') "H2".
  rewrite insert_take_drop; last by eapply lookup_lt_Some. rewrite big_sepL_app big_sepL_cons El Nat.add_0_r Z2Nat.id //.
  assert (forall k, k <> i -> content (set_row t i c') !! k = content t !! k) as Hk.
  { intros k Hk. destruct c'; unfold set_row; simpl; [by rewrite lookup_insert_ne|by rewrite lookup_delete_ne]. }
  assert (content (set_row t i c') !! i = c') as ->. { destruct c'; unfold set_row; simpl; [by rewrite lookup_insert|by rewrite lookup_delete]. }
  iFrame "H2". iSplitL "H1".
  - iApply (big_sepL_mono with "H1"). intros k q Hq. rewrite Hk //. apply lookup_lt_Some in Hq. lia.
  - iApply (big_sepL_mono with "H3"). intros k q Hq. rewrite Hk //. lia.
Qed.
Definition post (hdr szT : Z) (o : op) (a : arrays) (f : nat) (r : res) (f' : nat) (a' : arrays) : Prop :=
  effect o a r a' \/ (((f < f')%nat \/ too_big hdr szT o a) /\ failed o a r a').
Lemma set_row_same t i c : content t !! i = c -> set_row t i c = t.
Proof. intros <-. destruct t as [r cs m]. unfold set_row. simpl. f_equal. destruct (m !! i) eqn:E; [by rewrite insert_id|by rewrite delete_notin]. Qed.
Lemma ok_set_row t i c : ok t -> 0 <= i < arows t -> ok (set_row t i c).
Proof.
  intros (H1&H2&H3) Hi. split_and!; [done..|]. intros j Hj. destruct (decide (j = i)) as [->|Hne]; [done|]. apply H3.
  unfold set_row in Hj; destruct c; simpl in Hj; [by rewrite lookup_insert_ne in Hj|by rewrite lookup_delete_ne in Hj].
Qed.
(** Opening one array at one of its rows. *)
Lemma all_open_row a h t i : a !! h = Some t -> 0 <= i < arows t ->
  all a ⊢ ∃ ps p, h ↦o OTwoD (DData (arows t) (acols t) (Some <$> ps)) ∗ row_at (acols t) p (content t !! i) ∗ ⌈ps !! Z.to_nat i = Some p /\ ok t⌉ ∗
    (h ↦o OTwoD (DData (arows t) (acols t) (Some <$> ps)) -∗ row_at (acols t) p (content t !! i) -∗ all a) ∧
    (∀ p' c', h ↦o OTwoD (DData (arows t) (acols t) (Some <$> <[Z.to_nat i := p']> ps)) -∗ row_at (acols t) p' c' -∗ all (<[h := set_row t i c']> a)).
Proof.
  intros Ht Hi. iIntros "Ha". iDestruct (all_open _ _ _ _ Ht with "Ha") as "[(%ps&Hh&Hr&%Hok&%Hl) Ha]".
  destruct (lookup_lt_is_Some_2 ps (Z.to_nat i)) as [p Hp]; [lia|]. iDestruct (rows_open t ps i p Hp with "Hr") as "[Hp Hr]"; [lia|].
  iExists ps, p. iFrame "Hh Hp". iSplitR; [done|]. 
  iAssert (∀ p' c', h ↦o OTwoD (DData (arows t) (acols t) (Some <$> <[Z.to_nat i := p']> ps)) -∗ row_at (acols t) p' c' -∗ all (<[h := set_row t i c']> a))%I with "[Hr Ha]" as "H".
  { iIntros (p' c') "Hh Hp". iApply "Ha". iExists (<[Z.to_nat i := p']> ps). iFrame "Hh". iSplitL; [by iApply ("Hr" with "Hp")|]. iPureIntro. rewrite insert_length.
    split; [by apply ok_set_row|done]. }
  iSplit; [|done]. iIntros "Hh Hp". iSpecialize ("H" $! p (content t !! i)). rewrite (list_insert_id ps) // set_row_same // insert_id //. by iApply ("H" with "Hh Hp").
Qed.

Lemma step hdr szT o a f : allowed a o -> all a ⊢ wpi (run hdr szT o) f (fun r f' => ∃ a', ⌈post hdr szT o a f r f' a'⌉ ∗ all a').
Proof.
  intros Hal. iIntros "Ha". destruct o as [rs cs|h|h i|h i|h i out|h i j|h i j v]; iApply wpi_bind.
  - destruct Hal as [Hr Hc]. unfold TWO_D_ARRAY_CREATE. destruct (decide (rs = 0 \/ cs = 0)) as [Hz|Hz].
    { iApply wpi_ret. iApply wpi_ret. iExists a. iFrame. iPureIntro. left. simpl. rewrite decide_True //. }
    destruct (size_flex hdr rs 8) as [sz|] eqn:Esz.
    2: { iApply wpi_ret. iApply wpi_ret. iExists a. iFrame. iPureIntro. right. split; [right|done]. unfold size_flex in Esz. destruct (decide _); [done|]. simpl. lia. }
    iApply wpi_bind. iApply wpi_new_obj. iSplit.
    2: { iApply wpi_ret. iApply wpi_ret. iExists a. iFrame. iPureIntro. right. split; [left; lia|done]. }
    iIntros (h) "Hh". iApply wpi_bind. iApply (wpi_get_d with "Hh"). iIntros "Hh". iApply wpi_bind. iApply (wpi_set_d with "Hh"). iIntros "Hh". simpl.
    iApply wpi_bind. iApply (wpi_clear_rows with "Hh"); [by rewrite replicate_length|]. iIntros "Hh". simpl. iApply wpi_ret. iApply wpi_ret.
    iAssert (is_d h (TwoD rs cs ∅)) with "[Hh]" as "Ht".
    { iExists (replicate (Z.to_nat rs) None). rewrite fmap_replicate. iFrame "Hh". iSplitL.
      - unfold rows_at. iApply (big_sepL_mono (fun _ _ => emp%I)); [|by rewrite big_sepL_emp]. intros k p Hp. apply lookup_replicate in Hp as [-> _]. simpl. by rewrite lookup_empty.
      - iPureIntro. rewrite replicate_length. split; [|simpl; unfold is_u32 in Hr; lia]. split_and!; [done..|]. simpl. intros i [? H]. by rewrite lookup_empty in H. }
    iDestruct (all_add with "Ht Ha") as (Hn) "Ha"; [apply is_d_excl|]. iExists _. iFrame. iPureIntro. left. simpl. rewrite decide_False //. eauto.
  - destruct h as [h|]; simpl in Hal.
    2: { iApply wpi_ret. iApply wpi_ret. iExists a. iFrame. iPureIntro. by left. }
    destruct Hal as [t Ht]. iDestruct (all_take _ _ _ _ Ht with "Ha") as "[(%ps&Hh&Hr&%Hok&%Hl) Ha]". iApply wpi_bind. iApply (wpi_get_d with "Hh"). iIntros "Hh". simpl.
    iApply wpi_bind. iApply (wpi_free_rows _ _ _ ps (acols t) (content t) _ _ _ 0%nat with "Hh [Hr]"); [lia|done|]. iIntros "Hh". iApply (wpi_free_d with "Hh"). iApply wpi_ret.
    iExists (delete h a). iFrame. iPureIntro. by left.
  - destruct h as [h|].
    2: { iApply wpi_ret. iApply wpi_ret. iExists a. iFrame. iPureIntro. by left. }
    destruct Hal as [[t Ht] Hi]. destruct (decide (i < arows t)) as [Hlt|Hge].
    + unfold is_u32 in Hi. iDestruct (all_open_row _ _ _ i Ht with "Ha") as (ps p) "(Hh&Hp&%Hx&Ha)"; [lia|]. destruct Hx as [Hp Hok].
      iApply wpi_bind. iApply (wpi_get_d with "Hh"). iIntros "Hh". simpl. destruct (Z.leb_spec (arows t) i); [lia|].
      iApply wpi_bind. iApply (wpi_row_get with "Hh"); [done|]. iIntros "Hh". destruct p as [p|].
      * destruct (content t !! i) as [c|] eqn:Ec; [|by iDestruct "Hp" as %[]]. iDestruct "Ha" as "[Ha _]". iSpecialize ("Ha" with "Hh Hp").
        iApply wpi_ret. iApply wpi_ret. iExists a. iFrame. iPureIntro. left. simpl. exists t. split; [done|]. rewrite decide_False //. intros [_ ?]. congruence.
      * destruct (content t !! i) as [c|] eqn:Ec; [by iDestruct "Hp" as %[]|]. iApply wpi_bind. iApply wpi_arr_alloc. iSplit.
        -- iIntros (q) "Hq". iApply wpi_bind. iApply (wpi_row_set with "Hh"); [rewrite fmap_length; by eapply lookup_lt_Some|]. iIntros "Hh".
           iDestruct "Ha" as "[_ Ha]". iSpecialize ("Ha" $! (Some q) (Some (replicate (Z.to_nat (acols t)) None)) with "[Hh] [Hq]").
           { by rewrite list_fmap_insert. } { simpl. iFrame. iPureIntro. rewrite replicate_length. destruct Hok as (_&Hc&_). unfold is_u32 in Hc. lia. }
           iApply wpi_ret. iApply wpi_ret. iExists _. iFrame. iPureIntro. left. simpl. exists t. split; [done|]. rewrite decide_True //.
        -- iIntros (f' [Hf Hcase]). iDestruct "Ha" as "[Ha _]". iSpecialize ("Ha" with "Hh Hp"). iApply wpi_ret. iApply wpi_ret. iExists a. iFrame. iPureIntro. right.
           split; [|simpl; split; [by eauto|done]]. destruct Hcase as [?|Hc]; [by left|right]. apply size_2_none in Hc. simpl. eauto.
    + iDestruct (all_open _ _ _ _ Ht with "Ha") as "[(%ps&Hh&Hr&%Hok) Ha]". iApply wpi_bind. iApply (wpi_get_d with "Hh"). iIntros "Hh". simpl.
      destruct (Z.leb_spec (arows t) i); [|lia]. iSpecialize ("Ha" $! t with "[Hh Hr]"); [iExists ps; by iFrame|]. rewrite insert_id //.
      iApply wpi_ret. iApply wpi_ret. iExists a. iFrame. iPureIntro. left. simpl. exists t. split; [done|]. rewrite decide_False //. by intros [? _].
  - destruct h as [h|].
    2: { iApply wpi_ret. iApply wpi_ret. iExists a. iFrame. iPureIntro. by left. }
    destruct Hal as [[t Ht] Hi]. destruct (decide (i < arows t)) as [Hlt|Hge].
    + unfold is_u32 in Hi. iDestruct (all_open_row _ _ _ i Ht with "Ha") as (ps p) "(Hh&Hp&%Hx&Ha)"; [lia|]. destruct Hx as [Hp Hok].
      iApply wpi_bind. iApply (wpi_get_d with "Hh"). iIntros "Hh". simpl. destruct (Z.leb_spec (arows t) i); [lia|].
      iApply wpi_bind. iApply (wpi_row_get with "Hh"); [done|]. iIntros "Hh". destruct p as [p|].
      * destruct (content t !! i) as [c|] eqn:Ec; [|by iDestruct "Hp" as %[]]. iDestruct "Hp" as "[Hp _]". iApply wpi_bind. iApply (wpi_arr_free with "Hp").
        iApply wpi_bind. iApply (wpi_row_set with "Hh"); [rewrite fmap_length; by eapply lookup_lt_Some|]. iIntros "Hh".
        iDestruct "Ha" as "[_ Ha]". iSpecialize ("Ha" $! None None with "[Hh] []"); [by rewrite list_fmap_insert|done|].
        iApply wpi_ret. iApply wpi_ret. iExists _. iFrame. iPureIntro. left. simpl. exists t. split; [done|]. rewrite decide_True; [done|]. rewrite Ec. by eexists.
      * destruct (content t !! i) as [c|] eqn:Ec; [by iDestruct "Hp" as %[]|]. iDestruct "Ha" as "[Ha _]". iSpecialize ("Ha" with "Hh Hp").
        iApply wpi_ret. iApply wpi_ret. iExists a. iFrame. iPureIntro. left. simpl. exists t. split; [done|]. rewrite decide_False; [done|]. rewrite Ec. by intros [? ?].
    + iDestruct (all_open _ _ _ _ Ht with "Ha") as "[(%ps&Hh&Hr&%Hok) Ha]". iApply wpi_bind. iApply (wpi_get_d with "Hh"). iIntros "Hh". simpl.
      destruct (Z.leb_spec (arows t) i); [|lia]. iSpecialize ("Ha" $! t with "[Hh Hr]"); [iExists ps; by iFrame|]. rewrite insert_id //.
      iApply wpi_ret. iApply wpi_ret. iExists a. iFrame. iPureIntro. left. simpl. exists t. split; [done|]. rewrite decide_False //. intros Hs. destruct Hok as [(_&_&H3) _]. specialize (H3 _ Hs). lia.
  - destruct h as [h|].
    2: { iApply wpi_ret. iApply wpi_ret. iExists a. iFrame. iPureIntro. by left. }
    destruct Hal as [[t Ht] Hi]. destruct out; simpl.
    2: { iApply wpi_ret. iApply wpi_ret. iExists a. iFrame. iPureIntro. by left. }
    destruct (decide (i < arows t)) as [Hlt|Hge].
    + unfold is_u32 in Hi. iDestruct (all_open_row _ _ _ i Ht with "Ha") as (ps p) "(Hh&Hp&%Hx&Ha)"; [lia|]. destruct Hx as [Hp Hok].
      iApply wpi_bind. iApply (wpi_get_d with "Hh"). iIntros "Hh". simpl. destruct (Z.leb_spec (arows t) i); [lia|].
      iApply wpi_bind. iApply (wpi_row_get with "Hh"); [done|]. iIntros "Hh". iDestruct "Ha" as "[Ha _]". destruct p as [p|].
      * destruct (content t !! i) as [c|] eqn:Ec; [|by iDestruct "Hp" as %[]]. iSpecialize ("Ha" with "Hh Hp").
        iApply wpi_ret. iApply wpi_ret. iExists a. iFrame. iPureIntro. left. simpl. exists t. split; [done|]. rewrite decide_True // Ec //.
      * destruct (content t !! i) as [c|] eqn:Ec; [by iDestruct "Hp" as %[]|]. iSpecialize ("Ha" with "Hh Hp").
        iApply wpi_ret. iApply wpi_ret. iExists a. iFrame. iPureIntro. left. simpl. exists t. split; [done|]. rewrite decide_True // Ec //.
    + iDestruct (all_open _ _ _ _ Ht with "Ha") as "[(%ps&Hh&Hr&%Hok) Ha]". iApply wpi_bind. iApply (wpi_get_d with "Hh"). iIntros "Hh". simpl.
      destruct (Z.leb_spec (arows t) i); [|lia]. iSpecialize ("Ha" $! t with "[Hh Hr]"); [iExists ps; by iFrame|]. rewrite insert_id //.
      iApply wpi_ret. iApply wpi_ret. iExists a. iFrame. iPureIntro. left. simpl. exists t. split; [done|]. rewrite decide_False //.
  - destruct Hal as (t&c&v&Ht&Hc&Hv). iAssert (⌜ok t⌝)%I as %Hok. { iDestruct (all_open _ _ _ _ Ht with "Ha") as "[(%ps&_&_&%Hok&_) _]". done. }
    assert (0 <= i < arows t) as Hi. { destruct Hok as (_&_&H3). apply H3. by eexists. }
    iDestruct (all_open_row _ _ _ i Ht with "Ha") as (ps p) "(Hh&Hp&%Hx&Ha)"; [lia|]. destruct Hx as [Hp _]. rewrite Hc. destruct p as [p|]; [|by iDestruct "Hp" as %[]].
    iApply wpi_bind. iApply (wpi_get_d with "Hh"). iIntros "Hh". simpl. destruct (Z.leb_spec (arows t) i); [lia|].
    iApply wpi_bind. iApply (wpi_row_get with "Hh"); [done|]. iIntros "Hh". iApply wpi_ret. simpl. iDestruct "Hp" as "[Hp %Hl]".
    iApply wpi_bind. iApply (wpi_arr_get with "Hp"); [done|]. iIntros "Hp". iDestruct "Ha" as "[Ha _]". iSpecialize ("Ha" with "Hh [Hp]"); [by iFrame|].
    iApply wpi_ret. iExists a. iFrame. iPureIntro. left. simpl. exists t. split; [done|]. exists c, v. done.
  - destruct Hal as (t&c&Ht&Hc&Hv). iAssert (⌜ok t⌝)%I as %Hok. { iDestruct (all_open _ _ _ _ Ht with "Ha") as "[(%ps&_&_&%Hok&_) _]". done. }
    assert (0 <= i < arows t) as Hi. { destruct Hok as (_&_&H3). apply H3. by eexists. }
    iDestruct (all_open_row _ _ _ i Ht with "Ha") as (ps p) "(Hh&Hp&%Hx&Ha)"; [lia|]. destruct Hx as [Hp _]. rewrite Hc. destruct p as [p|]; [|by iDestruct "Hp" as %[]].
    iApply wpi_bind. iApply (wpi_get_d with "Hh"). iIntros "Hh". simpl. destruct (Z.leb_spec (arows t) i); [lia|].
    iApply wpi_bind. iApply (wpi_row_get with "Hh"); [done|]. iIntros "Hh". iApply wpi_ret. simpl. iDestruct "Hp" as "[Hp %Hl]".
    iApply wpi_bind. iApply (wpi_arr_set with "Hp"); [done|]. iIntros "Hp". iDestruct "Ha" as "[_ Ha]".
    iSpecialize ("Ha" $! (Some p) (Some (<[j := Some v]> c)) with "[Hh] [Hp]"); [by rewrite (list_insert_id ps)| |].
    { simpl. iFrame. iPureIntro. by rewrite insert_length. }
    iApply wpi_ret. iExists _. iFrame. iPureIntro. left. simpl. exists t. split; [done|]. exists c. done.
Qed.
Definition reps := SepAll.reps is_d.
Lemma step_ok hdr szT o s a : reps s a -> allowed a o ->
  exists r s' a', run hdr szT o s = Done (r, s') /\ reps s' a' /\ (effect o a r a' \/ (((fails s < fails s')%nat \/ too_big hdr szT o a) /\ failed o a r a')).
Proof. intros R Hal. by apply (reps_step is_d (run hdr szT o) s a (fun r f' a' => post hdr szT o a (fails s) r f' a') (step hdr szT o a (fails s) Hal)). Qed.
