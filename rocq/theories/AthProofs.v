(** Proofs for C51. *)
From Verif Require Import Common CbaModel Tally CbaSpec CbaFacts CbaProofs CbaCalls CbaEnd CbaSlice CbaBalance BatModel CbaLogic BatSpec BatProofs AthModel AthSpec.
From Verif Require Base64Model.
Local Open Scope Z_scope.

Notation cellsof f l spare := (map (fun x => Some (f x)) l ++ replicate spare None).
Lemma put_cell {A} (f : A -> cell) done (spare : nat) x : <[length done := Some (f x)]> (cellsof f done (S spare)) = cellsof f (done ++ [x]) spare.
Proof. rewrite insert_app_r_alt by (rewrite map_length; lia). rewrite map_length, Nat.sub_diag. simpl. rewrite map_app. simpl. by rewrite <- (assoc_L (++)). Qed.
Lemma cell_free {A} (f : A -> cell) done (spare : nat) : (cellsof f done (S spare)) !! length done = Some None.
Proof. rewrite lookup_app_r by (rewrite map_length; lia). by rewrite map_length, Nat.sub_diag. Qed.
Lemma bytes_no_bufs l more : bufs_in (map (fun c => Some (Byte c)) l ++ more) = bufs_in more.
Proof. induction l as [|x l IH]; simpl; [done|]. exact IH. Qed.
Lemma bytes_no_arrs l more : arrs_in (map (fun c => Some (Byte c)) l ++ more) = arrs_in more.
Proof. induction l as [|x l IH]; simpl; [done|]. exact IH. Qed.

(** ** Strings *)
Lemma characters_app l more : characters (map (fun c => Some (Byte c)) l ++ more) = l ++ characters more.
Proof. induction l as [|x l IH]; simpl; [done|by rewrite IH]. Qed.
Lemma strlen_ok {S} l rest (s : S) : 0 ∉ l -> Base64Model.strlen (l ++ 0 :: rest) s = Done (length l, s).
Proof.
  induction l as [|x l IH]; intros H; simpl; [done|]. apply not_elem_of_cons in H as [Hx Hl]. assert (x =? 0 = false) as -> by lia. by rewrite (bind_done _ _ _ _ _ (IH Hl)).
Qed.
Lemma wp_strcpy k l rest : 0 ∉ l -> forall done spare i (Q : post unit) t, mem t !! k = Some (cellsof Byte done (S (length l) + spare)) -> i = length done ->
  Q tt (get_block k (cellsof Byte (done ++ l ++ [0]) spare) t) 0%nat -> wp (strcpy k i (l ++ 0 :: rest)) Q t.
Proof.
  induction l as [|x l IH]; intros H done spare i Q t Hm -> HQ; cbn [app strcpy].
  - apply wp_bind. eapply wp_write; [exact Hm|apply (cell_free Byte)|done|]. rewrite (put_cell Byte done spare). simpl. apply wp_ret. exact HQ.
  - apply not_elem_of_cons in H as [Hx Hl]. apply wp_bind. eapply wp_write; [exact Hm|apply (cell_free Byte)|done|].
    rewrite (put_cell Byte done (length (x :: l) + spare)). cbn [moved_out]. assert (x =? 0 = false) as -> by lia.
    eapply (IH Hl (done ++ [x]) spare); [simpl; by rewrite lookup_insert|rewrite app_length; simpl; lia|]. simpl in HQ |- *. rewrite <- (assoc_L (++)). simpl.
    unfold get_block in *. simpl. rewrite insert_insert. exact HQ.
Qed.
Lemma wp_chars p l (Q : post bytes) t : text t p l -> (forall rest, Q (l ++ 0 :: rest) t 0%nat) -> wp (chars_at p) Q t.
Proof.
  intros [Hp _] HQ. destruct p as [l'|k]; destruct Hp as [more Hp].
  - subst l'. apply (wp_pure _ ((l ++ [0]) ++ more)); [done|]. rewrite <- (assoc_L (++)). apply HQ.
  - apply (wp_pure _ (l ++ 0 :: characters more)); [|apply HQ]. intros s HR. unfold chars_at. rewrite (r_mem _ _ HR _ _ Hp), characters_app, <- (assoc_L (++)). done.
Qed.
Lemma same_refl t : same t t.
Proof. by split_and!. Qed.
Lemma wp_text_copy dest p t : match p with None => True | Some p => exists l, text t p l end ->
  wp (const_charptr_copy dest p) (fun r t' f => copies (dest = false) (0 < f)%nat t t' r p (fun p c => exists l, text t p l /\ c = map Byte (l ++ [0]))) t.
Proof.
  intros Hp. destruct dest; cbn [const_charptr_copy]; [|apply wp_ret; split; [by split; [|apply same_refl]|done]].
  destruct p as [p|]; [|apply wp_ret; split; [done|]; by split; [|apply same_refl]]. destruct Hp as [l Hl]. apply wp_bind. eapply wp_chars; [exact Hl|]. intros rest.
  apply wp_bind. eapply wp_pure; [intros s _; apply strlen_ok; apply Hl|]. apply wp_bind. apply wp_block.
  - apply wp_ret. split; [done|]. intros _. split; [by split; [|apply same_refl]|]. intros H. destruct H. lia.
  - intros k Hk. apply wp_bind. eapply (wp_strcpy k l rest (proj2 Hl) [] 0 0); [simpl; rewrite lookup_insert, Nat.add_0_r, Nat.add_1_r; done|done|].
    apply wp_ret. split; [done|]. intros _. split; [intros; lia|]. intros _. exists k, (map Byte (l ++ [0])). split_and!; [done|by exists l|].
    unfold get_block. simpl. rewrite insert_insert, app_nil_r. split; [done|]. rewrite map_map. apply same_refl.
Qed.
Lemma wp_text_free v t : match v with None => True | Some k => exists l, mem t !! k = Some (map (fun c => Some (Byte c)) l) end ->
  wp (const_charptr_free v) (fun _ t' _ => match v with None => same t t' | Some k => drops_block t k t' end) t.
Proof.
  intros Hv. destruct v as [k|]; cbn [const_charptr_free]; [|apply wp_ret, same_refl]. destruct Hv as [l Hk]. eapply wp_free; [exact Hk|].
  pose proof (bytes_no_bufs l []) as H1. pose proof (bytes_no_arrs l []) as H2. rewrite app_nil_r in H1, H2. rewrite H1, H2. split_and!; try done; simpl; intros; lia.
Qed.

(** ** Arrays of handles *)
(** An array is alive when the user holds a reference to it, or one is stored in a block of theirs *)
Definition alive (t : abs) (a : nat) : Prop := (0 < ours t a)%nat \/ exists k c, mem t !! k = Some c /\ a ∈ arrs_in c.
Lemma wp_inc_ref x (Q : post unit) t : match x with None => True | Some a => alive t a end -> Q tt (match x with None => t | Some a => get_arr a t end) 0%nat -> wp (constbuffer_array_inc_ref x) Q t.
Proof.
  intros Ha HQ. destruct x as [a|]; [|by apply wp_ret]. intros s HR. cbn [constbuffer_array_inc_ref]. destruct (nodes s !! a) as [n|] eqn:En.
  - destruct (r_node _ _ HR a n En) as (l & Hl & _ & _ & Hr & _). eexists tt, (with_nodes (<[a := renumber n (S (nref n))]> (nodes s)) s), (get_arr a t), 0%nat. split_and!; [| |simpl; lia|done].
    + unfold inc_node. erewrite bind_done by (unfold get_node; by rewrite En). destruct (nref n) eqn:E; [lia|]. reflexivity.
    + eapply (R_count t s _ a n (S (nref n))); try done; lia.
  - destruct (r_dead _ _ HR a En) as [H1 H2]. exfalso. destruct Ha as [Ha|(k & c & Hk & Hc)]; [lia|]. apply (r_mem _ _ HR) in Hk.
    pose proof (tally_ge (fun _ c => occ a (arrs_in c)) _ _ _ Hk) as H. simpl in H. apply occ_elem in Hc. lia.
Qed.
Lemma arrs_cells l more : arrs_in (map (fun x => Some (handle_cell x)) l ++ more) = omap id l ++ arrs_in more.
Proof. induction l as [|[x|] l IH]; simpl; [done| |exact IH]. unfold arrs_in in *. simpl. by rewrite IH. Qed.
Lemma bufs_cells l more : bufs_in (map (fun x => Some (handle_cell x)) l ++ more) = bufs_in more.
Proof. induction l as [|[x|] l IH]; simpl; [done|exact IH|exact IH]. Qed.

(** src[i] while the copy is made: the source is not the block k *)
Definition src_ok (t : abs) (p : memory (option nat)) (l : list (option nat)) : Prop :=
  points handle_cell t p l /\ match p with Own _ => Forall (fun x => match x with None => True | Some a => alive t a end) l | Block _ => True end.
Lemma src_alive t p l i a : src_ok t p l -> l !! i = Some (Some a) -> alive t a.
Proof.
  intros [Hp Ha] Hi. destruct p as [l'|k].
  - rewrite Forall_forall in Ha. apply (Ha (Some a)). by eapply elem_of_list_lookup_2.
  - destruct Hp as [more Hm]. right. eexists k, _. split; [exact Hm|]. rewrite arrs_cells. apply elem_of_app. left. apply elem_of_list_omap. exists (Some a). split; [by eapply elem_of_list_lookup_2|done].
Qed.
Lemma wp_handle_at p l i x (Q : post _) t : points handle_cell t p l -> l !! i = Some x -> Q x t 0%nat -> wp (handle_at p i) Q t.
Proof.
  intros Hp Hi HQ. apply (wp_pure _ x); [|done]. intros s HR. destruct p as [l'|k]; destruct Hp as [more Hp]; cbn [handle_at].
  - subst l'. unfold item. by rewrite (lookup_app_l_Some _ _ _ _ Hi).
  - assert (read_cell k i s = Done (handle_cell x, s)) as E.
    { unfold read_cell. rewrite (r_mem _ _ HR _ _ Hp). simpl. erewrite lookup_app_l_Some by (by rewrite list_lookup_fmap, Hi). done. }
    rewrite (bind_done _ _ _ _ _ E). by destruct x.
Qed.
Lemma wp_copy_handles p k sub : forall l dn i (Q : post unit) t, src_ok t p l -> l = dn ++ sub -> p <> Block k -> mem t !! k = Some (cellsof handle_cell dn (length sub)) -> i = length dn ->
  (forall t', same (get_block k (map (fun x => Some (handle_cell x)) l) t) t' -> Q tt t' 0%nat) -> wp (copy_handles p k i (length sub)) Q t.
Proof.
  induction sub as [|x sub IH]; intros l dn i Q t Hs Hl Hne Hm -> HQ; cbn [copy_handles length].
  - rewrite app_nil_r in Hl. subst l. apply wp_ret, HQ. split_and!; try done. simpl in Hm |- *. rewrite app_nil_r in Hm. by rewrite insert_id.
  - assert (l !! length dn = Some x) as Hx by (subst l; by rewrite lookup_app_r, Nat.sub_diag). apply wp_bind. eapply wp_handle_at; [apply Hs|exact Hx|].
    apply wp_bind. apply wp_inc_ref; [destruct x as [a|]; [by eapply src_alive|done]|]. set (t1 := match x with None => t | Some a => get_arr a t end).
    assert (points handle_cell t1 p l) as Hp1. { destruct Hs as [Hp _]. unfold t1. by destruct x. }
    apply wp_bind. eapply wp_handle_at; [exact Hp1|exact Hx|]. apply wp_bind.
    eapply wp_write; [|apply (cell_free handle_cell dn (length sub))| |].
    { unfold t1. by destruct x. }
    { unfold t1. destruct x as [a|]; [|done]. simpl. rewrite upd_same. lia. }
    rewrite (put_cell handle_cell). set (t2 := get_block _ _ _).
    assert (same (get_block k (cellsof handle_cell (dn ++ [x]) (length sub)) t) t2) as (E1 & E2 & E3 & E4 & E5).
    { unfold t2, t1. destruct x as [a|]; simpl; split_and!; try done. simpl. intros a'. unfold upd. repeat case_decide; subst; done || lia. }
    eapply (IH l (dn ++ [x])).
    + destruct Hs as [Hp Ha]. destruct p as [l'|k']; (split; [|]); try done.
      * eapply Forall_impl; [exact Ha|]. intros [a|]; [|done]. intros [H|(k' & c & Hk & Hc)]; [left; rewrite E5; done|]. right. destruct (decide (k' = k)) as [->|Hne'].
        -- exists k, (cellsof handle_cell (dn ++ [x]) (length sub)). rewrite E3. simpl. rewrite lookup_insert. split; [done|]. rewrite Hm in Hk. injection Hk as <-.
           rewrite arrs_cells in Hc |- *. rewrite omap_app. apply elem_of_app in Hc as [Hc|Hc]; [set_solver|]. change (a ∈ arrs_in (replicate (S (length sub)) None)) in Hc. rewrite (arrs_none (S (length sub))) in Hc. by apply elem_of_nil in Hc.
        -- exists k', c. rewrite E3. simpl. by rewrite lookup_insert_ne.
      * destruct Hp as [more Hp]. exists more. rewrite E3. simpl. rewrite lookup_insert_ne by congruence. done.
    + subst l. by rewrite <- (assoc_L (++)).
    + done.
    + rewrite E3. simpl. by rewrite lookup_insert.
    + rewrite app_length. simpl. lia.
    + intros t' (F1 & F2 & F3 & F4 & F5). apply HQ. split_and!; simpl in *; try congruence.
      * rewrite F3, E3. simpl. by rewrite insert_insert.
Qed.
Lemma wp_handles_copy dest p n t : is_u32 n -> match p with None => True | Some p => exists l, handles t p n l end ->
  wp (constbuffer_array_ptr_copy dest p n) (fun r t' f => copies (dest = false \/ n = 0) (0 < f)%nat t t' r p (fun p c => exists l, handles t p n l /\ c = map handle_cell l)) t.
Proof.
  intros Hn Hp. unfold constbuffer_array_ptr_copy. destruct (negb dest || (n =? 0)) eqn:Eb.
  - assert (dest = false \/ n = 0) by (destruct dest; [right; simpl in Eb; lia|by left]). apply wp_ret. split; [by split; [|apply same_refl]|done].
  - assert (~ (dest = false \/ n = 0)) as Hok by (destruct dest; [simpl in Eb; intros [?|?]; [done|lia]|done]).
    destruct p as [p|]; [|apply wp_ret; split; [done|]; by split; [|apply same_refl]]. destruct Hp as (l & Hp & Hl & Ha). apply wp_bind. apply wp_block.
    + apply wp_ret. split; [done|]. intros _. split; [by split; [|apply same_refl]|]. intros H. destruct H. lia.
    + intros k Hk. apply wp_bind. replace (Z.to_nat n) with (length l) by (unfold len in Hl; lia).
      eapply (wp_copy_handles p k l l []); try done.
      * split.
        -- destruct p as [l'|k']; [done|]. destruct Hp as [more Hp]. exists more. simpl. rewrite lookup_insert_ne; [done|]. intros ->. by rewrite Hk in Hp.
        -- destruct p as [l'|k']; [|done]. eapply Forall_impl; [exact Ha|]. intros [a|]; [|done]. intros (la & Hh & _). by left.
      * intros ->. destruct Hp as [more Hp]. by rewrite Hk in Hp.
      * simpl. by rewrite lookup_insert.
      * intros t' He. apply wp_ret. split; [done|]. intros _. split; [intros; lia|]. intros _. exists k, (map handle_cell l). split_and!; [done|by exists l|]. split; [done|].
        destruct He as (E1 & E2 & E3 & E4 & E5). simpl in *. rewrite map_map. split_and!; simpl; try done. rewrite E3. by rewrite insert_insert.
Qed.

Local Open Scope cm.
Fixpoint dec_handles (l : list (option nat)) : M heap unit := match l with [] => ret tt | a :: l => constbuffer_array_dec_ref a ;;; dec_handles l end.
Local Close Scope cm.
Lemma loop_handles k c l : forall i s s', (forall j b, l !! j = Some b -> c !! (i + j)%nat = Some (Some (handle_cell b))) -> blocks s !! k = None -> dec_handles l s = Done (tt, s') ->
  free_handles k i (length l) (with_block k c s) = Done (tt, with_block k c s') /\ blocks s' !! k = None.
Proof.
  induction l as [|x l IH]; intros i s s' Hl Hk E; cbn [dec_handles length free_handles handle_at] in *; [by injection E as <-|].
  apply bind_inv in E as ([] & s1 & E1 & E2).
  assert (bind (read_cell k i) (fun c => match c with Arr a => ret (Some a) | Word 0 => ret None | _ => undef end) (with_block k c s) = Done (x, with_block k c s)) as Er.
  { erewrite bind_done by (apply read_block; pose proof (Hl 0%nat x eq_refl) as H0; rewrite Nat.add_0_r in H0; exact H0). by destruct x. }
  rewrite (bind_done _ _ _ _ _ Er).
  assert (constbuffer_array_dec_ref x (with_block k c s) = Done (tt, with_block k c s1) /\ blocks s1 !! k = None) as [E3 Hk1].
  { destruct x as [x|]; [exact (frames_dec_ref k c (S x) x _ _ _ Hk E1)|]. cbn [constbuffer_array_dec_ref] in *. by injection E1 as <-. }
  rewrite (bind_done _ _ _ _ _ E3). apply (IH (S i) s1 s'); [|done|done]. intros j b Hj. rewrite <- (Hl (S j) b Hj). f_equal. lia.
Qed.
Lemma wp_dec_handles l : forall (Q : post unit) t, (forall b, occ b (omap id l) <= ours t b)%nat ->
  (forall t', eqv (Abs (data t) (seqs t) (mine t) (fun b => ours t b - occ b (omap id l))%nat (mem t)) t' -> Q tt t' 0%nat) -> wp (dec_handles l) Q t.
Proof.
  intros Q t Hl HQ. eapply (wp_mono (dec_handles l) (fun x t' f => f = 0%nat /\ eqv (Abs (data t) (seqs t) (mine t) (fun b => ours t b - occ b (omap id l))%nat (mem t)) t')).
  2:{ intros [] t' f [-> H]. by apply HQ. }
  pose proof (wp_dec_arrays (omap id l) (fun x t' f => f = 0%nat /\ eqv (Abs (data t) (seqs t) (mine t) (fun b => ours t b - occ b (omap id l))%nat (mem t)) t') t Hl ltac:(done)) as H.
  assert (forall s, dec_handles l s = dec_arrays (omap id l) s) as Heq.
  { clear. induction l as [|[x|] l IH]; intros s; [done| |].
    - change (omap id (Some x :: l)) with (x :: omap id l). cbn [dec_handles dec_arrays]. unfold bind. destruct (constbuffer_array_dec_ref (Some x) s) as [[[] s1]| |]; [apply IH|done|done].
    - change (omap id (None :: l)) with (omap id l). exact (IH s). }
  intros s HR. destruct (H s HR) as (x & s' & t' & f & E & ?). exists x, s', t', f. rewrite Heq. done.
Qed.
Lemma wp_handles_free v n t : is_u32 n -> match v with None => True | Some k => exists l, mem t !! k = Some (map Some (map handle_cell l)) /\ (n = 0 \/ n = len l) end ->
  wp (constbuffer_array_ptr_free v n) (fun _ t' _ => match v with Some k => if decide (n = 0) then same t t' else drops_block t k t' | None => same t t' end) t.
Proof.
  intros Hn Hv. destruct v as [k|]; cbn [constbuffer_array_ptr_free]; [|apply wp_ret, same_refl]. destruct Hv as (l & Hk & Hl). destruct (decide (n = 0)) as [->|Hne]; [apply wp_ret, same_refl|].
  assert (n =? 0 = false) as -> by lia. destruct Hl as [|Hl]; [done|]. replace (Z.to_nat n) with (length l) by (unfold len in Hl; lia). rewrite map_map in Hk.
  pose proof (arrs_cells l []) as Ha. pose proof (bufs_cells l []) as Hb. rewrite app_nil_r in Ha, Hb. unfold arrs_in in Ha at 2. simpl in Ha. rewrite app_nil_r in Ha.
  eapply (wp_unframe _ (dec_handles l)); [exact Hk| |].
  - intros s s' Hks E. apply (loop_handles k _ l 0 s s'); [|done|done]. intros j b Hj. simpl. by rewrite list_lookup_fmap, Hj.
  - apply wp_dec_handles; simpl; rewrite Ha; [intros; lia|]. rewrite Hb. intros t' (E1 & E2 & E3 & E4 & E5). simpl in *. split_and!; try done; simpl.
    + intros b. rewrite E4. simpl. lia.
    + intros a. rewrite E5. lia.
Qed.

(** ** One handle *)
Lemma wp_handle_copy dest h t : maybe_held t h ->
  wp (CONSTBUFFER_ARRAY_HANDLE_copy dest h) (fun r t' _ => if dest then r = (true, Some h) /\ same (match h with None => t | Some a => get_arr a t end) t' else r = (false, None) /\ same t t') t.
Proof.
  intros Hh. unfold CONSTBUFFER_ARRAY_HANDLE_copy, ref_counted_copy. destruct dest; [|apply wp_ret; by split; [|apply same_refl]]. apply wp_bind. destruct h as [a|].
  - apply wp_inc_ref; [destruct Hh as (l & Ha & _); by left|]. apply wp_ret. by split; [|apply same_refl].
  - apply wp_ret, wp_ret. by split; [|apply same_refl].
Qed.
Lemma wp_handle_free h t : maybe_held t h -> wp (CONSTBUFFER_ARRAY_HANDLE_free h) (fun _ t' _ => same (match h with None => t | Some a => put_arr a t end) t') t.
Proof.
  intros Hh. unfold CONSTBUFFER_ARRAY_HANDLE_free, ref_counted_free. destruct h as [a|]; [|apply wp_ret, same_refl]. destruct Hh as (l & Ha & _).
  intros s HR. destruct (dec_top t s a HR Ha) as (s' & E & HR1 & Hf). eexists tt, _, _, 0%nat. split_and!; [exact E|exact HR1|lia|apply same_refl].
Qed.

Lemma perform_ok t s o : R t s -> may t o -> exists r s' t', perform o s = Done (r, s') /\ does (fails s < fails s')%nat t o r t' /\ R t' s'.
Proof.
  intros HR Hm.
  assert (wp (perform o) (fun r t' f => does (0 < f)%nat t o r t') t) as H.
  { destruct o as [dest p|v|dest p n|v n|dest h|h]; cbn [perform does may] in *; apply wp_bind; (eapply wp_mono; [first [by apply wp_text_copy|by apply wp_text_free|by apply wp_handles_copy; apply Hm
      |by apply wp_handles_free; apply Hm|by apply wp_handle_copy|by apply wp_handle_free]|]); intros x t' f Hx; apply wp_ret; rewrite ?Nat.add_0_r; exact Hx. }
  destruct (H s HR) as (r & s' & t' & f & E & HR' & Hf & Hd). exists r, s', t'. split_and!; [done| |done]. revert Hd. replace (fails s' ) with (fails s + f)%nat. clear.
  assert ((0 < f)%nat <-> (fails s < fails s + f)%nat) as Hiff by lia. destruct o, r; cbn [does]; try done.
  all: unfold copies; intros [H1 H2]; split; [done|]; intros Hb; specialize (H2 Hb); destruct p; [|done]; destruct H2; split; [rewrite <- Hiff; done|rewrite <- Hiff; done].
Qed.
