(** Proofs about SListModel: the model refines SListSpec. *)
From Verif Require Import Common SListModel SListSpec.
Local Open Scope cmonad_scope.

(** A chain segment that ends by pointing at [e]. *)
Fixpoint seg (ns : gmap positive (Z * ptr)) (start : ptr) (l : list (positive * Z)) (e : ptr) : Prop :=
  match l with
  | [] => start = e
  | (a, v) :: l' => start = Some a /\ exists nx, ns !! a = Some (v, nx) /\ seg ns nx l' e
  end.
Lemma chain_seg ns s l : chain ns s l <-> seg ns s l None.
Proof. revert s; induction l as [|[a v] l IH]; intros s; simpl; [done|]. by setoid_rewrite IH. Qed.
Lemma seg_app ns s l1 l2 e : seg ns s (l1 ++ l2) e <-> exists mid, seg ns s l1 mid /\ seg ns mid l2 e.
Proof.
  revert s; induction l1 as [|[a v] l1 IH]; intros s; simpl.
  - split; [intros H; by exists s | by intros (?&->&?)].
  - split.
    + intros [-> (nx&Ha&Hs)]. apply IH in Hs as (mid&?&?). exists mid; eauto 6.
    + intros (mid&[-> (nx&Ha&Hs)]&H2). split; [done|]. exists nx; split; [done|]. apply IH. eauto.
Qed.
Lemma seg_frame ns ns' s l e : (forall a, a ∈ l.*1 -> ns' !! a = ns !! a) -> seg ns s l e -> seg ns' s l e.
Proof.
  revert s; induction l as [|[a v] l IH]; intros s HF; simpl; [done|].
  intros [-> (nx&Ha&Hs)]. split; [done|]. exists nx. rewrite HF by (left). split; [done|]. apply IH; [|done].
  intros b Hb. apply HF. by right.
Qed.
Lemma seg_mapped ns s l e a : seg ns s l e -> a ∈ l.*1 -> is_Some (ns !! a).
Proof.
  revert s; induction l as [|[b v] l IH]; intros s; simpl; [by intros _ ?%elem_of_nil|].
  intros [-> (nx&Ha&Hs)] [->|H]%elem_of_cons; eauto.
Qed.
Lemma seg_start_nonnil ns s l e : seg ns s l e -> l <> [] -> s = fst <$> head l.
Proof. destruct l as [|[a v] l]; simpl; [done|]. by intros [-> _] _. Qed.
Lemma chain_start ns s l : chain ns s l -> s = fst <$> head l.
Proof. destruct l as [|[a v] l]; simpl; [done|]. by intros [-> _]. Qed.
Lemma last_fst (l : list (positive * Z)) : fst <$> last l = last (l.*1).
Proof. by rewrite fmap_last. Qed.

(** The view of one list. *)
Definition one (m : smem) (k : positive) (l : list (positive * Z)) : Prop :=
  exists hd, hdrs m !! k = Some (hd, fst <$> last l) /\ chain (nodes m) hd l /\ NoDup (l.*1).

Lemma holds_one m L k l : holds m L -> L !! k = Some l -> one m k l.
Proof. intros H Hk. apply (holds_hdr _ _ H _ _ Hk). Qed.

Lemma holds_update m m' L k l l' :
  holds m L -> L !! k = Some l -> one m' k l' ->
  (forall k', k' <> k -> hdrs m' !! k' = hdrs m !! k') ->
  (forall a, a ∉ l.*1 -> a ∉ l'.*1 -> nodes m' !! a = nodes m !! a) ->
  (forall a, a ∈ l.*1 -> a ∉ l'.*1 -> nodes m' !! a = None) ->
  (forall a k2 l2, k2 <> k -> L !! k2 = Some l2 -> a ∈ l2.*1 -> a ∉ l'.*1) ->
  holds m' (<[k := l']> L).
Proof.
  intros H Hk H1 Hh Hn Hgone Hfresh. split.
  - intros k2 l2 Hk2. destruct (decide (k2 = k)) as [->|Hne].
    + rewrite lookup_insert in Hk2. by injection Hk2 as <-.
    + rewrite lookup_insert_ne in Hk2 by done.
      destruct (holds_hdr _ _ H _ _ Hk2) as (hd&Hhd&Hc&Hnd). exists hd. rewrite Hh by done. split; [done|].
      split; [|done]. apply chain_seg. apply chain_seg in Hc. eapply seg_frame; [|done].
      intros a Ha. apply Hn; [|eauto]. intros Ha'. by eapply (holds_disj _ _ H k k2).
  - intros k2 Hk2. destruct (decide (k2 = k)) as [->|Hne]; [by rewrite lookup_insert in Hk2|].
    rewrite lookup_insert_ne in Hk2 by done. rewrite Hh by done. by apply (holds_none _ _ H).
  - intros k1 k2 l1 l2 a H1' H2 Hne Ha1 Ha2.
    destruct (decide (k1 = k)) as [->|Hne1]; destruct (decide (k2 = k)) as [->|Hne2]; try done.
    + rewrite lookup_insert in H1'. rewrite lookup_insert_ne in H2 by done. injection H1' as ->. by eapply Hfresh.
    + rewrite lookup_insert in H2. rewrite lookup_insert_ne in H1' by done. injection H2 as ->. by eapply Hfresh.
    + rewrite lookup_insert_ne in H1' by done. rewrite lookup_insert_ne in H2 by done.
      by eapply (holds_disj _ _ H k1 k2).
  - intros a Ha. destruct (decide (a ∈ l'.*1)) as [|Hna]; [exists k, l'; by rewrite lookup_insert|].
    destruct (decide (a ∈ l.*1)) as [Hia|Hna2].
    { rewrite (Hgone a Hia Hna) in Ha. by destruct Ha. }
    rewrite Hn in Ha by done. destruct (holds_noleak _ _ H _ Ha) as (k2&l2&Hk2&Ha2).
    exists k2, l2. split; [|done]. rewrite lookup_insert_ne; [done|]. intros <-. rewrite Hk in Hk2. by injection Hk2 as ->.
Qed.

Lemma unused_spec L p : unused_item L p = true -> forall k l, L !! k = Some l -> p ∉ l.*1.
Proof. unfold unused_item. rewrite bool_decide_eq_true. intros H k l. apply (H k l). Qed.
Lemma unused_node m L p : holds m L -> unused_item L p = true -> nodes m !! p = None.
Proof.
  intros H Hu. destruct (nodes m !! p) eqn:E; [|done].
  destruct (holds_noleak _ _ H p) as (k&l&Hk&Hp); [by eexists|]. by apply (unused_spec _ _ Hu) in Hk.
Qed.

Ltac msimp := unfold bind, ret, rd_hdr, wr_hdr, rd_node, wr_node, free_node, free_hdr, new_node, new_hdr; simpl.

Ltac run := repeat (first
  [ progress simpl
  | match goal with H : ?x !! ?k = Some _ |- context [match ?x !! ?k with _ => _ end] => rewrite H end
  | match goal with |- context [match <[?k := _]> _ !! ?k with _ => _ end] => rewrite lookup_insert end
  | match goal with |- context [match <[?k := _]> _ !! ?k2 with _ => _ end] => rewrite (lookup_insert_ne _ k k2) by done end ]).

(** ** Removing the item in the middle of a list. *)
Lemma unlink_free_ok m k l1 c v l2 hd nx :
  hdrs m !! k = Some (hd, fst <$> last (l1 ++ (c, v) :: l2)) ->
  seg (nodes m) hd l1 (Some c) -> nodes m !! c = Some (v, nx) -> chain (nodes m) nx l2 ->
  NoDup ((l1 ++ (c, v) :: l2).*1) ->
  exists m' hd', (unlink k (fst <$> last l1) c nx ;;; free_node c) m = Done (tt, m') /\
    hdrs m' !! k = Some (hd', fst <$> last (l1 ++ l2)) /\
    seg (nodes m') hd' l1 nx /\ chain (nodes m') nx l2 /\
    (forall k', k' <> k -> hdrs m' !! k' = hdrs m !! k') /\
    (forall a, a ∉ (l1 ++ (c, v) :: l2).*1 -> nodes m' !! a = nodes m !! a) /\
    nodes m' !! c = None.
Proof.
  intros Hh Hs Hc Hch Hnd.
  rewrite fmap_app, fmap_cons in Hnd. simpl in Hnd.
  apply NoDup_app in Hnd as (Hnd1&Hdisj&Hnd2). apply NoDup_cons in Hnd2 as [Hc2 Hnd2].
  assert (Hc1 : c ∉ l1.*1). { intros Hx. apply (Hdisj c Hx). by left. }
  (* when is c the tail *)
  assert (Htail : forall p, last (l1 ++ (c,v) :: l2) = Some p -> (p.1 = c <-> l2 = [])).
  { intros p. rewrite last_app_cons. destruct l2 as [|x l2]; simpl.
    - intros [= <-]. done.
    - intros Hp. split; [|done]. intros Hpc. exfalso. apply Hc2.
      assert (p ∈ x :: l2) by (apply last_Some_elem_of; exact Hp). rewrite <-Hpc. apply elem_of_list_fmap. eauto. }
  assert (HL : exists p, last (l1 ++ (c,v) :: l2) = Some p).
  { rewrite last_app_cons. apply last_is_Some. done. }
  destruct HL as [p Hp]. rewrite Hp in Hh. simpl in Hh. specialize (Htail p Hp).
  destruct (last l1) as [[q w]|] eqn:Hl1.
  - (* has predecessor *)
    assert (exists l0, l1 = l0 ++ [(q, w)]) as [l0 ->] by (apply last_Some; done).
    apply seg_app in Hs as (mid&Hs0&Hq). simpl in Hq. destruct Hq as [-> (nx0&Hq&->)].
    rewrite fmap_app in Hc1. simpl in Hc1.
    assert (q <> c). { intros ->. apply Hc1. apply elem_of_app. right. by left. }
    rewrite fmap_app in Hnd1. apply NoDup_app in Hnd1 as (Hnd0&Hd0&_).
    assert (Hq0 : q ∉ l0.*1). { intros Hx. apply (Hd0 q Hx). by left. }
    assert (Hq2 : q ∉ l2.*1). { intros Hx. apply (Hdisj q); [rewrite fmap_app; apply elem_of_app; right; by left|]. by right. }
    set (ns' := delete c (<[q := (w, nx)]> (nodes m))).
    assert (Hns : forall a, a <> c -> a <> q -> ns' !! a = nodes m !! a).
    { intros a ??. unfold ns'. by rewrite lookup_delete_ne, lookup_insert_ne by done. }
    assert (Hseg : seg ns' hd (l0 ++ [(q, w)]) nx).
    { apply seg_app. exists (Some q). split.
      - eapply seg_frame; [|done]. intros a Ha. apply Hns; intros ->; [|done]. apply Hc1. apply elem_of_app. by left.
      - simpl. split; [done|]. exists nx. unfold ns'. by rewrite lookup_delete_ne, lookup_insert by done. }
    assert (Hch' : chain ns' nx l2).
    { apply chain_seg. apply chain_seg in Hch. eapply seg_frame; [|done]. intros a Ha. apply Hns; by intros ->. }
    unfold unlink. msimp. run.
    destruct (decide (Some c = Some p.1)) as [Heq|Hne].
    + simplify_eq. run.
      eexists _, hd. split; [reflexivity|]. simpl.
      assert (l2 = []) as -> by (apply Htail; congruence). rewrite app_nil_r, last_snoc. simpl.
      rewrite lookup_insert. split; [done|]. split; [exact Hseg|]. split; [exact Hch'|].
      split; [intros; by rewrite lookup_insert_ne|]. split; [|apply lookup_delete].
      intros a Ha. apply Hns; intros ->; apply Ha; rewrite !fmap_app; simpl; set_solver.
    + run.
      eexists _, hd. split; [reflexivity|]. simpl. rewrite Hh.
      assert (Hne2 : l2 <> []) by (intros Hx; apply Hne; f_equal; symmetry; by apply Htail).
      split.
      { destruct l2 as [|x l2]; [done|]. rewrite last_app_cons in Hp |- *. rewrite last_cons_cons in Hp. by rewrite Hp. }
      split; [exact Hseg|]. split; [exact Hch'|]. split; [done|]. split; [|apply lookup_delete].
      intros a Ha. apply Hns; intros ->; apply Ha; rewrite !fmap_app; simpl; set_solver.
  - apply last_None in Hl1 as ->. simpl in Hs. subst hd.
    set (ns' := delete c (nodes m)).
    assert (Hch' : chain ns' nx l2).
    { apply chain_seg. apply chain_seg in Hch. eapply seg_frame; [|done]. intros a Ha. unfold ns'.
      apply lookup_delete_ne. by intros ->. }
    unfold unlink. msimp. run.
    destruct (decide (Some c = Some p.1)) as [Heq|Hne].
    + injection Heq as Heq. assert (l2 = []) as -> by (by apply Htail). run. eexists _, nx. split; [reflexivity|]. simpl.
      rewrite lookup_insert. simpl in *.
      repeat split; try done.
      * intros. by rewrite !lookup_insert_ne.
      * intros a Ha. apply lookup_delete_ne. intros ->. apply Ha. by left.
      * apply lookup_delete.
    + run. eexists _, nx. split; [reflexivity|]. simpl.
      rewrite lookup_insert.
      assert (Hne2 : l2 <> []) by (intros Hx; apply Hne; f_equal; symmetry; by apply Htail).
      repeat split; try done.
      * destruct l2 as [|x l2]; [done|]. cbn [app] in Hp. rewrite last_cons_cons in Hp. by rewrite Hp.
      * intros. by rewrite !lookup_insert_ne.
      * intros a Ha. apply lookup_delete_ne. intros ->. apply Ha. by left.
      * apply lookup_delete.
Qed.

(** What an operation on one list may do to the memory. *)
Definition changes (m m' : smem) (k : positive) (l l' : list (positive * Z)) : Prop :=
  (forall k', k' <> k -> hdrs m' !! k' = hdrs m !! k') /\
  (forall a, a ∉ l.*1 -> nodes m' !! a = nodes m !! a) /\
  (forall a, a ∈ l.*1 -> a ∉ l'.*1 -> nodes m' !! a = None).

Lemma holds_changes m m' L k l l' :
  holds m L -> L !! k = Some l -> one m' k l' -> l'.*1 ⊆ l.*1 -> changes m m' k l l' -> holds m' (<[k := l']> L).
Proof.
  intros H Hk H1 Hsub (Hh&Hn&Hg). eapply holds_update; eauto.
  intros a k2 l2 Hne Hk2 Ha Ha'. apply Hsub in Ha'. by eapply (holds_disj _ _ H k k2).
Qed.

(** The remove loop, between a prefix already walked and the rest. *)
Lemma remove_loop_ok fuel m k p l1 l2 hd cur :
  length l2 < fuel ->
  hdrs m !! k = Some (hd, fst <$> last (l1 ++ l2)) ->
  seg (nodes m) hd l1 cur -> chain (nodes m) cur l2 -> NoDup ((l1 ++ l2).*1) -> p ∉ l1.*1 ->
  (p ∉ l2.*1 -> remove_loop fuel k p (fst <$> last l1) cur m = Done (false, m)) /\
  (p ∈ l2.*1 -> exists m', remove_loop fuel k p (fst <$> last l1) cur m = Done (true, m') /\
     one m' k (l1 ++ remove_item p l2) /\ changes m m' k (l1 ++ l2) (l1 ++ remove_item p l2)).
Proof.
  revert l1 l2 cur. induction fuel as [|fuel IH]; intros l1 l2 cur Hf Hh Hs Hc Hnd Hp; [lia|].
  destruct l2 as [|[c v] l2]; simpl in Hc.
  { subst cur. simpl. split; [done|]. by intros ?%elem_of_nil. }
  destruct Hc as [-> (nx&Hcn&Hc)]. simpl in Hf. simpl remove_loop. simpl remove_item.
  destruct (decide (c = p)) as [->|Hne].
  - split; [intros Hx; exfalso; apply Hx; by left|]. intros _.
    destruct (unlink_free_ok m k l1 p v l2 hd nx Hh Hs Hcn Hc Hnd) as (m'&hd'&Hrun&Hh'&Hs'&Hc'&HF1&HF2&HF3).
    exists m'. split.
    { msimp. rewrite Hcn. simpl. unfold bind in Hrun. destruct (unlink k (fst <$> last l1) p nx m) as [[[] m1]| |] eqn:E; try done.
      unfold free_node in Hrun. by rewrite Hrun. }
    split.
    { exists hd'. split; [done|]. split.
      - apply chain_seg, seg_app. exists nx. split; [done|]. by apply chain_seg.
      - rewrite fmap_app in *. simpl in Hnd. apply NoDup_app in Hnd as (?&Hd&Hn2). apply NoDup_cons in Hn2 as [? ?].
        apply NoDup_app. split; [done|]. split; [|done]. intros x Hx Hx2. apply (Hd x Hx). by right. }
    split; [done|]. split; [done|]. intros a Ha Ha'.
    rewrite fmap_app in *. simpl in *.
    apply elem_of_app in Ha as [Ha|Ha]; [exfalso; apply Ha'; apply elem_of_app; by left|].
    apply elem_of_cons in Ha as [->|Ha]; [done|]. exfalso; apply Ha'; apply elem_of_app; by right.
  - msimp. rewrite Hcn. simpl.
    assert (Hcons : l1 ++ (c, v) :: l2 = (l1 ++ [(c, v)]) ++ l2) by (by rewrite <-app_assoc).
    destruct (IH (l1 ++ [(c, v)]) l2 nx) as [IH1 IH2].
    + lia.
    + by rewrite <-Hcons.
    + apply seg_app. exists (Some c). split; [done|]. simpl. eauto.
    + done.
    + by rewrite <-Hcons.
    + rewrite fmap_app. intros [?|Hx]%elem_of_app; [done|]. simpl in Hx. apply elem_of_list_singleton in Hx. by subst.
    + rewrite last_snoc in IH1, IH2. simpl in IH1, IH2. split.
      * intros Hx. apply IH1. intros Hy. apply Hx. by right.
      * intros [Hx|Hx]%elem_of_cons; [by subst|]. destruct (IH2 Hx) as (m'&?&?&?). exists m'.
        rewrite Hcons. assert (l1 ++ (c, v) :: remove_item p l2 = (l1 ++ [(c, v)]) ++ remove_item p l2) as -> by (by rewrite <-app_assoc). done.
Qed.

Lemma remove_item_sub p l : (remove_item p l).*1 ⊆ l.*1.
Proof.
  induction l as [|[a v] l IH]; simpl; [done|]. destruct (decide (a = p)); simpl.
  - intros x Hx. by right.
  - intros x [->|Hx]%elem_of_cons; [by left|right; by apply IH].
Qed.

Section cb.
  Context {U : Type}.

  Lemma remove_if_loop_ok fuel m k (f : Z -> U -> bool * bool * U) l1 l2 hd cur u :
    length l2 < fuel ->
    hdrs m !! k = Some (hd, fst <$> last (l1 ++ l2)) ->
    seg (nodes m) hd l1 cur -> chain (nodes m) cur l2 -> NoDup ((l1 ++ l2).*1) ->
    exists m', remove_if_loop fuel k f (fst <$> last l1) cur u m = Done ((remove_if_seq f l2 u).2, m') /\
      one m' k (l1 ++ (remove_if_seq f l2 u).1) /\ (remove_if_seq f l2 u).1.*1 ⊆ l2.*1 /\
      changes m m' k (l1 ++ l2) (l1 ++ (remove_if_seq f l2 u).1).
  Proof.
    revert m l1 l2 hd cur u. induction fuel as [|fuel IH]; intros m l1 l2 hd cur u Hf Hh Hs Hc Hnd; [lia|].
    destruct l2 as [|[c v] l2]; simpl in Hc.
    { subst cur. simpl. exists m. split; [done|]. split; [|split; [done|]].
      - exists hd. rewrite app_nil_r in *. split; [done|]. split; [|done]. by apply chain_seg.
      - split; [done|]. split; [done|]. rewrite app_nil_r. done. }
    destruct Hc as [-> (nx&Hcn&Hc)]. simpl in Hf. simpl.
    msimp. rewrite Hcn. simpl. destruct (f v u) as [[rem cont] u1] eqn:Ef.
    assert (Hcons : l1 ++ (c, v) :: l2 = (l1 ++ [(c, v)]) ++ l2) by (by rewrite <-app_assoc).
    assert (Hself : forall l', one m k l' -> changes m m k l' l').
    { intros l' _. split; [done|]. split; [done|]. done. }
    destruct rem.
    - destruct (unlink_free_ok m k l1 c v l2 hd nx Hh Hs Hcn Hc Hnd) as (m1&hd'&Hrun&Hh'&Hs'&Hc'&HF1&HF2&HF3).
      unfold bind in Hrun. destruct (unlink k (fst <$> last l1) c nx m) as [[[] m0]| |] eqn:E; try done.
      unfold free_node in Hrun. rewrite Hrun. clear Hrun E.
      assert (Hnd' : NoDup ((l1 ++ l2).*1)).
      { rewrite fmap_app in *. simpl in Hnd. apply NoDup_app in Hnd as (?&Hd&Hn2). apply NoDup_cons in Hn2 as [? ?].
        apply NoDup_app. split; [done|]. split; [|done]. intros x Hx Hx2. apply (Hd x Hx). by right. }
      assert (Hcn' : c ∉ l1.*1 /\ c ∉ l2.*1).
      { rewrite fmap_app in Hnd. simpl in Hnd. apply NoDup_app in Hnd as (?&Hd&Hn2). apply NoDup_cons in Hn2 as [? ?].
        split; [|done]. intros Hx. apply (Hd c Hx). by left. }
      destruct cont.
      + destruct (IH m1 l1 l2 hd' nx u1) as (m'&Hr&Ho&Hsub&HC1&HC2&HC3); [lia|done..|].
        destruct (remove_if_seq f l2 u1) as [rest u2] eqn:Er. simpl in *.
        exists m'. split; [done|]. split; [done|]. split; [intros x Hx; right; by apply Hsub|].
        split; [intros; by rewrite HC1, HF1|]. rewrite !fmap_app in *. simpl in *. split.
        * intros a Ha. rewrite HC2; [apply HF2|].
          { rewrite ?fmap_app. simpl. done. }
          { intros Hx. apply Ha. apply elem_of_app in Hx as [?|?]; apply elem_of_app; [by left|right; by right]. }
        * intros a Ha Ha'. apply elem_of_app in Ha as [Ha|Ha]; [exfalso; apply Ha'; apply elem_of_app; by left|].
          apply elem_of_cons in Ha as [->|Ha]; [|apply HC3; [apply elem_of_app; by right|done]].
          rewrite HC2; [done|]. intros [?|?]%elem_of_app; naive_solver.
      + simpl. exists m1. split; [done|]. split; [|split].
        * exists hd'. split; [done|]. split; [|done]. apply chain_seg, seg_app. exists nx. split; [done|]. by apply chain_seg.
        * intros x Hx. by right.
        * split; [done|]. split; [done|]. intros a Ha Ha'. rewrite fmap_app in *. simpl in *.
          apply elem_of_app in Ha as [Ha|Ha]; [exfalso; apply Ha'; apply elem_of_app; by left|].
          apply elem_of_cons in Ha as [->|Ha]; [done|]. exfalso; apply Ha'; apply elem_of_app; by right.
    - destruct cont.
      + destruct (IH m (l1 ++ [(c, v)]) l2 hd nx u1) as (m'&Hr&Ho&Hsub&HC).
        * lia.
        * by rewrite <-Hcons.
        * apply seg_app. exists (Some c). split; [done|]. simpl. eauto.
        * done.
        * by rewrite <-Hcons.
        * rewrite last_snoc in Hr. destruct (remove_if_seq f l2 u1) as [rest u2] eqn:Er. simpl in *.
          exists m'. split; [done|].
          assert (l1 ++ (c, v) :: rest = (l1 ++ [(c, v)]) ++ rest) as -> by (by rewrite <-app_assoc).
          rewrite Hcons. split; [done|]. split; [|done].
          intros x [->|Hx]%elem_of_cons; [by left|right; by apply Hsub].
      + simpl. exists m. split; [done|].
        assert (one m k (l1 ++ (c, v) :: l2)).
        { exists hd. split; [done|]. split; [|done]. apply chain_seg, seg_app. exists (Some c). split; [done|]. simpl. split; [done|].
          exists nx. split; [done|]. by apply chain_seg. }
        split; [done|]. split; [done|]. by apply Hself.
  Qed.

  Lemma find_loop_ok fuel m (f : positive -> Z -> U -> bool * U) l cur u :
    length l < fuel -> chain (nodes m) cur l -> find_loop fuel f cur u m = Done (find_seq f l u, m).
  Proof.
    revert l cur u. induction fuel as [|fuel IH]; intros l cur u Hf Hc; [lia|].
    destruct l as [|[c v] l]; simpl in Hc; [by subst|]. destruct Hc as [-> (nx&Hcn&Hc)]. simpl in Hf. simpl.
    msimp. rewrite Hcn. simpl. destruct (f c v u) as [[] u1]; [done|]. apply IH; [lia|done].
  Qed.
  Lemma foreach_loop_ok fuel m (f : Z -> U -> bool * U) l cur u :
    length l < fuel -> chain (nodes m) cur l -> foreach_loop fuel f cur u m = Done (foreach_items f l u, m).
  Proof.
    revert l cur u. induction fuel as [|fuel IH]; intros l cur u Hf Hc; [lia|].
    destruct l as [|[c v] l]; simpl in Hc; [by subst|]. destruct Hc as [-> (nx&Hcn&Hc)]. simpl in Hf. simpl.
    msimp. rewrite Hcn. simpl. destruct (f v u) as [[] u1]; [|done]. rewrite Hcn. apply IH; [lia|done].
  Qed.
End cb.

(** destroy *)
Lemma destroy_loop_ok fuel m k l tl hd :
  length l < fuel -> hdrs m !! k = Some (hd, tl) -> chain (nodes m) hd l -> NoDup (l.*1) ->
  exists m' v, destroy_loop fuel k m = Done (tt, m') /\ hdrs m' !! k = Some v /\
    (forall k', k' <> k -> hdrs m' !! k' = hdrs m !! k') /\
    (forall a, a ∉ l.*1 -> nodes m' !! a = nodes m !! a) /\ (forall a, a ∈ l.*1 -> nodes m' !! a = None).
Proof.
  revert m l hd. induction fuel as [|fuel IH]; intros m l hd Hf Hh Hc Hnd; [lia|].
  destruct l as [|[c v] l]; simpl in Hc.
  { subst hd. exists m, (None, tl). simpl. msimp. rewrite Hh. repeat split; try done. by intros ? ?%elem_of_nil. }
  destruct Hc as [-> (nx&Hcn&Hc)]. simpl in Hf. simpl. msimp. rewrite Hh. simpl. rewrite Hcn. simpl. rewrite Hh. simpl. rewrite Hcn.
  simpl in Hnd. apply NoDup_cons in Hnd as [Hcl Hnd].
  destruct (IH (SMem (<[k:=(nx, tl)]> (hdrs m)) (delete c (nodes m))) l nx) as (m'&w&Hr&Hw&H1&H2&H3); simpl.
  - lia.
  - apply lookup_insert.
  - apply chain_seg. apply chain_seg in Hc. eapply seg_frame; [|done]. intros a Ha. apply lookup_delete_ne. by intros ->.
  - done.
  - exists m', w. split; [done|]. split; [done|]. simpl in *. split; [|split].
    + intros. rewrite H1 by done. by rewrite lookup_insert_ne.
    + intros a [Hac Hal]%not_elem_of_cons. rewrite H2 by done. by rewrite lookup_delete_ne.
    + intros a [->|Ha]%elem_of_cons; [|by apply H3]. rewrite H2 by done. apply lookup_delete.
Qed.

Lemma suffix_at_split p l s : suffix_at p l = Some s -> exists l1 v l2, l = l1 ++ (p, v) :: l2 /\ s = (p, v) :: l2.
Proof.
  induction l as [|[a v] l IH]; simpl; [done|]. destruct (decide (a = p)) as [->|].
  - intros [= <-]. by exists [], v, l.
  - intros H. destruct (IH H) as (l1&w&l2&->&->). by exists ((a, v) :: l1), w, l2.
Qed.

Lemma lookup_in_lists m L p s ss :
  holds m L -> omap (fun kl : positive * list (positive * Z) => suffix_at p kl.2) (map_to_list L) = s :: ss ->
  exists v l2, s = (p, v) :: l2 /\ nodes m !! p = Some (v, fst <$> head l2).
Proof.
  intros H Ho.
  assert (Hs : s ∈ omap (fun kl : positive * list (positive * Z) => suffix_at p kl.2) (map_to_list L)) by (rewrite Ho; left).
  apply elem_of_list_omap in Hs as ([k l]&Hin&Hs). simpl in Hs. apply elem_of_map_to_list in Hin.
  destruct (suffix_at_split _ _ _ Hs) as (l1&v&l2&->&->). exists v, l2. split; [done|].
  destruct (holds_hdr _ _ H _ _ Hin) as (hd&_&Hc&_). apply chain_seg, seg_app in Hc as (mid&_&Hc). simpl in Hc.
  destruct Hc as [-> (nx&Hn&Hc)]. rewrite Hn. apply chain_seg, chain_start in Hc. by rewrite Hc.
Qed.

Lemma spec_step_len {U} L (o : slop U) r L' n :
  spec_step L o = Some (r, L') -> (forall k l, L !! k = Some l -> length l <= n) -> (forall k l, L' !! k = Some l -> length l <= S n).
Proof.
  intros Hs Hn k l Hk.
  assert (Hrem : forall p l0, length (remove_item p l0) <= length l0).
  { intros p l0. induction l0 as [|[a v] l0 IH]; simpl; [lia|]. case_decide; simpl; lia. }
  assert (Hrif : forall (f : Z -> U -> bool * bool * U) l0 u, length (remove_if_seq f l0 u).1 <= length l0).
  { intros f l0. induction l0 as [|[a v] l0 IH]; intros u; simpl; [lia|]. destruct (f v u) as [[[] []] u1]; simpl; try lia.
    - specialize (IH u1). destruct (remove_if_seq f l0 u1); simpl in *; lia.
    - specialize (IH u1). destruct (remove_if_seq f l0 u1); simpl in *; lia. }
  assert (Hold : L !! k = Some l -> length l <= S n) by (intros Hx; specialize (Hn _ _ Hx); lia).
  assert (Hins : forall k0 l0 l1, L !! k0 = Some l0 -> length l1 <= S (length l0) -> <[k0 := l1]> L !! k = Some l -> length l <= S n).
  { intros k0 l0 l1 H0 Hle [[<- <-]|[_ ?]]%lookup_insert_Some; [|auto]. specialize (Hn _ _ H0). lia. }
  destruct o as [[k0|]|[k0|]|al [k0|] v|al [k0|] v|[k0|] [p|]|[k0|]|[p|]|[p|]|[k0|] [f|] u|[k0|] [f|] u|[k0|] [f|] u];
    simpl in Hs; repeat case_match; simplify_eq; auto.
  - apply lookup_insert_Some in Hk as [[<- <-]|[_ ?]]; simpl; [lia|auto].
  - apply lookup_delete_Some in Hk as [_ ?]; auto.
  - eapply Hins; [done| |done]. rewrite app_length. simpl. lia.
  - eapply Hins; [done| |done]. simpl. lia.
  - eapply Hins; [done| |done]. match goal with |- length (remove_item ?p ?l0) <= _ => specialize (Hrem p l0) end. lia.
  - eapply Hins; [done| |done].
    match goal with H : remove_if_seq ?f ?l0 ?u = _ |- _ => specialize (Hrif f l0 u); rewrite H in Hrif; simpl in Hrif end. lia.
Qed.

Theorem impl_step_ok {U} fuel m L (o : slop U) r L' :
  (forall k l, L !! k = Some l -> length l < fuel) ->
  holds m L -> spec_step L o = Some (r, L') ->
  exists m', impl_step fuel o m = Done (r, m') /\ holds m' L'.
Proof.
  intros Hfuel H Hs.
  destruct o as [[k|]|[k|]|al [k|] v|al [k|] v|[k|] [p|]|[k|]|[p|]|[p|]|[k|] [f|] u|[k|] [f|] u|[k|] [f|] u];
    simpl in Hs; simpl impl_step; try (simplify_eq; by exists m).
  - (* create *) case_decide as Hk; [|done]. simplify_eq. msimp. eexists; split; [reflexivity|].
    split; simpl.
    + intros k2 l2 Hk2. apply lookup_insert_Some in Hk2 as [[<- <-]|[Hne Hk2]].
      * exists None. rewrite lookup_insert. repeat split; try done. constructor.
      * rewrite lookup_insert_ne by done. by apply (holds_hdr _ _ H).
    + intros k2 Hk2. apply lookup_insert_None in Hk2 as [Hk2 Hne]. rewrite lookup_insert_ne by done. by apply (holds_none _ _ H).
    + intros k1 k2 l1 l2 a H1 H2 Hne Ha1 Ha2.
      apply lookup_insert_Some in H1 as [[<- <-]|[Hne1 H1]]; [by apply elem_of_nil in Ha1|].
      apply lookup_insert_Some in H2 as [[<- <-]|[Hne2 H2]]; [by apply elem_of_nil in Ha2|].
      by eapply (holds_disj _ _ H k1 k2).
    + intros a Ha. destruct (holds_noleak _ _ H _ Ha) as (k2&l2&Hk2&Ha2). exists k2, l2. split; [|done].
      rewrite lookup_insert_ne; [done|]. congruence.
  - (* destroy *) destruct (L !! k) as [l|] eqn:Hk; [|done]. simplify_eq.
    destruct (holds_hdr _ _ H _ _ Hk) as (hd&Hh&Hc&Hnd).
    destruct (destroy_loop_ok fuel m k l _ hd (Hfuel _ _ Hk) Hh Hc Hnd) as (m'&w&Hr&Hw&H1&H2&H3).
    simpl. unfold bind. rewrite Hr. unfold free_hdr. rewrite Hw. unfold ret. eexists; split; [reflexivity|].
    split; simpl.
    + intros k2 l2 Hk2. apply lookup_delete_Some in Hk2 as [Hne Hk2]. rewrite lookup_delete_ne, H1 by done.
      destruct (holds_hdr _ _ H _ _ Hk2) as (hd2&Hh2&Hc2&Hnd2). exists hd2. split; [done|]. split; [|done].
      apply chain_seg. apply chain_seg in Hc2. eapply seg_frame; [|done]. intros a Ha. apply H2. intros Ha'.
      by eapply (holds_disj _ _ H k k2).
    + intros k2 Hk2. destruct (decide (k2 = k)) as [->|Hne]; [apply lookup_delete|].
      rewrite lookup_delete_ne in Hk2 by done. rewrite lookup_delete_ne by done. rewrite H1 by done. by apply (holds_none _ _ H).
    + intros k1 k2 l1 l2 a [_ Ha]%lookup_delete_Some [_ Hb]%lookup_delete_Some. by apply (holds_disj _ _ H k1 k2).
    + intros a Ha. destruct (decide (a ∈ l.*1)) as [Hal|Hal]; [rewrite (H3 _ Hal) in Ha; by destruct Ha|].
      rewrite H2 in Ha by done. destruct (holds_noleak _ _ H _ Ha) as (k2&l2&Hk2&Ha2). exists k2, l2. split; [|done].
      rewrite lookup_delete_ne; [done|]. intros <-. rewrite Hk in Hk2. by simplify_eq.
  - (* add *) destruct (L !! k) as [l|] eqn:Hk; [|done].
    destruct al as [a|].
    2:{ simplify_eq. exists m. simpl. msimp. by destruct (Z.eq_dec v 0). }
    destruct (unused_item L a) eqn:Hu; [|done].
    destruct (decide (v = 0%Z)) as [->|Hv].
    { simplify_eq. exists m. done. }
    simplify_eq. simpl. destruct (Z.eq_dec v 0) as [|_]; [done|]. msimp.
    destruct (holds_hdr _ _ H _ _ Hk) as (hd&Hh&Hc&Hnd). rewrite Hh. simpl.
    assert (Ha0 : nodes m !! a = None) by (by eapply unused_node).
    assert (Hal : a ∉ l.*1) by (by eapply unused_spec).
    destruct (last l) as [[q w]|] eqn:Hl.
    + apply last_Some in Hl as [l0 ->]. simpl.
      assert (hd <> None). { destruct l0 as [|[? ?] ?]; simpl in Hc; naive_solver. }
      destruct hd as [hd|]; [|done].
      apply chain_seg, seg_app in Hc as (mid&Hs0&Hq). simpl in Hq. destruct Hq as [-> (nx&Hq&->)].
      assert (Haq : a <> q). { intros ->. by rewrite Ha0 in Hq. }
      run.
      eexists; split; [reflexivity|].
      rewrite fmap_app in Hal, Hnd. simpl in Hal, Hnd. apply NoDup_app in Hnd as (Hnd0&Hd0&_).
      assert (Hq0 : q ∉ l0.*1). { intros Hx. apply (Hd0 q Hx). by left. }
      eapply holds_update; [done|done| | | | |]; simpl.
      * exists (Some hd). simpl. rewrite lookup_insert, last_snoc. split; [done|]. split.
        -- apply chain_seg. rewrite <-app_assoc. apply seg_app. exists (Some q). split.
           ++ eapply seg_frame; [|done]. intros b Hb. rewrite !lookup_insert_ne; [done| |].
              ** intros <-. apply Hal. apply elem_of_app. by left.
              ** by intros <-.
           ++ simpl. split; [done|]. exists (Some a). rewrite lookup_insert. split; [done|]. split; [done|].
              exists None. rewrite lookup_insert_ne by done. by rewrite lookup_insert.
        -- rewrite !fmap_app. simpl. apply NoDup_app. split.
           { apply NoDup_app. split; [done|]. split; [done|]. apply NoDup_singleton. }
           split; [|apply NoDup_singleton]. intros x Hx ->%elem_of_list_singleton. done.
      * intros. by rewrite lookup_insert_ne.
      * intros b Hb Hb'. rewrite !fmap_app in Hb'. rewrite fmap_app in Hb. rewrite !lookup_insert_ne; [done| |]; intros <-.
        -- apply Hb'. apply elem_of_app. right. by left.
        -- apply Hb. apply elem_of_app. right. by left.
      * intros b Hb Hb'. exfalso. apply Hb'. rewrite fmap_app. apply elem_of_app. by left.
      * intros b k2 l2 Hne Hk2 Hb Hb'. rewrite fmap_app in Hb'. apply elem_of_app in Hb' as [Hb'|Hb'].
        -- eapply (holds_disj _ _ H k k2); eauto.
        -- simpl in Hb'. apply elem_of_list_singleton in Hb' as ->. by eapply unused_spec.
    + apply last_None in Hl as ->. simpl in Hc. subst hd. simpl. rewrite Hh. simpl.
      eexists; split; [reflexivity|]. eapply holds_update; [done|done| | | | |]; simpl.
      * exists (Some a). simpl. rewrite lookup_insert. split; [done|]. split; [|apply NoDup_singleton].
        split; [done|]. exists None. by rewrite lookup_insert.
      * intros. by rewrite lookup_insert_ne.
      * intros b _ Hb. rewrite lookup_insert_ne; [done|]. intros <-. apply Hb. by left.
      * by intros b ?%elem_of_nil.
      * intros b k2 l2 Hne Hk2 Hb ->%elem_of_list_singleton. by eapply unused_spec.
  - (* add_head *) destruct (L !! k) as [l|] eqn:Hk; [|done].
    destruct al as [a|]; [|simplify_eq; by exists m].
    destruct (unused_item L a) eqn:Hu; [|done]. simplify_eq. simpl. msimp.
    destruct (holds_hdr _ _ H _ _ Hk) as (hd&Hh&Hc&Hnd). rewrite Hh. simpl.
    assert (Ha0 : nodes m !! a = None) by (by eapply unused_node).
    assert (Hal : a ∉ l.*1) by (by eapply unused_spec).
    assert (Hgen : forall tl, tl = fst <$> last ((a, v) :: l) ->
      holds (SMem (<[k := (Some a, tl)]> (hdrs m)) (<[a := (v, hd)]> (nodes m))) (<[k := (a, v) :: l]> L)).
    { intros tl ->. eapply holds_update; [done|done| | | | |]; simpl.
      - exists (Some a). cbn [hdrs nodes]. rewrite lookup_insert. split; [done|]. split.
        + split; [done|]. exists hd. rewrite lookup_insert. split; [done|]. apply chain_seg. apply chain_seg in Hc.
          eapply seg_frame; [|done]. intros b Hb. rewrite lookup_insert_ne; [done|]. by intros <-.
        + simpl. by apply NoDup_cons.
      - intros. by rewrite lookup_insert_ne.
      - intros b _ [Hb _]%not_elem_of_cons. by rewrite lookup_insert_ne.
      - intros b Hb Hb'. exfalso. apply Hb'. by right.
      - intros b k2 l2 Hne Hk2 Hb [->|Hb']%elem_of_cons; [by eapply unused_spec|].
        eapply (holds_disj _ _ H k k2); eauto. }
    destruct hd as [hd|]; simpl; rewrite Hh; (eexists; split; [reflexivity|]); apply Hgen.
    + destruct l as [|x l]; [done|]. by rewrite last_cons_cons.
    + destruct l as [|[x ?] l]; [done|]. simpl in Hc. naive_solver.
  - (* remove *) destruct (L !! k) as [l|] eqn:Hk; [|done].
    destruct (holds_hdr _ _ H _ _ Hk) as (hd&Hh&Hc&Hnd).
    destruct (remove_loop_ok fuel m k p [] l hd hd (Hfuel _ _ Hk) Hh) as [H1 H2]; [done..|by intros ?%elem_of_nil|].
    unfold impl_step, sl_remove, bind, rd_hdr. rewrite Hh. cbv beta iota.
    case_decide as Hin; simplify_eq.
    + destruct (H2 Hin) as (m'&Hr&Ho&Hch). simpl in Hr. rewrite Hr. exists m'. split; [done|].
      eapply holds_changes; [done|done|exact Ho| |exact Hch]. apply remove_item_sub.
    + simpl in H1. rewrite H1 by done. by exists m.
  - (* get head *) destruct (L !! k) as [l|] eqn:Hk; [|done]. simplify_eq.
    destruct (holds_hdr _ _ H _ _ Hk) as (hd&Hh&Hc&Hnd). simpl. msimp. rewrite Hh. simpl. exists m.
    apply chain_start in Hc. by rewrite Hc.
  - (* get next *) destruct (omap _ _) as [|[|[q v] l2] ss] eqn:Ho; [done|done|]. simplify_eq.
    destruct (lookup_in_lists _ _ _ _ _ H Ho) as (v'&l2'&Heq&Hn). simplify_eq. simpl. msimp. rewrite Hn. by exists m.
  - (* get value *) destruct (omap _ _) as [|[|[q v] l2] ss] eqn:Ho; [done|done|]. simplify_eq.
    destruct (lookup_in_lists _ _ _ _ _ H Ho) as (v'&l2'&Heq&Hn). simplify_eq. simpl. msimp. rewrite Hn. by exists m.
  - (* find *) destruct (L !! k) as [l|] eqn:Hk; [|done].
    destruct (holds_hdr _ _ H _ _ Hk) as (hd&Hh&Hc&Hnd). destruct (find_seq f l u) as [p u'] eqn:Hf. simplify_eq.
    unfold sl_find, bind, rd_hdr. rewrite Hh. cbv beta iota. rewrite (find_loop_ok _ _ _ l) by eauto. rewrite Hf. by exists m.
  - (* remove_if *) destruct (L !! k) as [l|] eqn:Hk; [|done].
    destruct (holds_hdr _ _ H _ _ Hk) as (hd&Hh&Hc&Hnd). 
    destruct (remove_if_loop_ok fuel m k f [] l hd hd u (Hfuel _ _ Hk) Hh) as (m'&Hr&Ho&Hsub&Hch); [done..|].
    destruct (remove_if_seq f l u) as [l' u'] eqn:Hf. simplify_eq. simpl in *.
    unfold sl_remove_if, bind, rd_hdr. rewrite Hh. cbv beta iota. rewrite Hr. exists m'. split; [done|].
    eapply holds_changes; eauto.
  - (* foreach *) destruct (L !! k) as [l|] eqn:Hk; [|done].
    destruct (holds_hdr _ _ H _ _ Hk) as (hd&Hh&Hc&Hnd). simplify_eq.
    unfold sl_foreach, bind, rd_hdr. rewrite Hh. cbv beta iota. rewrite (foreach_loop_ok _ _ _ l) by eauto. by exists m.
Qed.

Theorem impl_run_ok {U} (os : list (slop U)) fuel m L rs L' :
  (forall k l, L !! k = Some l -> length l + length os < fuel) -> length os < fuel ->
  holds m L -> spec_run L os = Some (rs, L') ->
  exists m', impl_run fuel os m = Done (rs, m') /\ holds m' L'.
Proof.
  revert m L rs L'. induction os as [|o os IH]; intros m L rs L' Hf Hf0 H Hs; simpl in Hs.
  { simplify_eq. by exists m. }
  destruct (spec_step L o) as [[r L1]|] eqn:E; [|done].
  destruct (spec_run L1 os) as [[rs' L2]|] eqn:E2; [|done]. simplify_eq. simpl in Hf, Hf0.
  destruct (impl_step_ok fuel m L o r L1) as (m1&Hr&H1); [|done|done|].
  { intros k l Hk. specialize (Hf _ _ Hk). simpl in Hf. lia. }
  destruct (IH m1 L1 rs' L') as (m2&Hr2&H2); [|lia|done|done|].
  { intros k l Hk. assert (length l <= S (fuel - 2 - length os)); [|lia].
    eapply (spec_step_len _ _ _ _ (fuel - 2 - length os) E); [|done].
    intros k2 l2 Hk2. specialize (Hf _ _ Hk2). lia. }
  exists m2. split; [|done]. simpl. unfold bind. rewrite Hr, Hr2. done.
Qed.

Lemma holds_empty m : holds m ∅ -> m = SMem ∅ ∅.
Proof.
  intros H. destruct m as [hs ns]. f_equal.
  - apply map_eq. intros k. rewrite lookup_empty. by apply (holds_none _ _ H).
  - apply map_eq. intros a. rewrite lookup_empty. destruct (ns !! a) eqn:E; [|done].
    destruct (holds_noleak _ _ H a) as (k&l&Hk&_); [simpl; rewrite E; eauto|done].
Qed.
Lemma holds_init : holds (SMem ∅ ∅) ∅.
Proof.
  split; simpl; intros *; rewrite ?lookup_empty; try done. intros [? ?]; done.
Qed.
Lemma run_from_empty {U} (os : list (slop U)) fuel rs L' :
  length os < fuel -> spec_run ∅ os = Some (rs, L') ->
  exists m', impl_run fuel os (SMem ∅ ∅) = Done (rs, m') /\ holds m' L' /\ (L' = ∅ -> m' = SMem ∅ ∅).
Proof.
  intros Hf Hs. destruct (impl_run_ok os fuel (SMem ∅ ∅) ∅ rs L') as (m'&Hr&H); [done|done|apply holds_init|done|].
  exists m'. split; [done|]. split; [done|]. intros ->. by apply holds_empty.
Qed.
