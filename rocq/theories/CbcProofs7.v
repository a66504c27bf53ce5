(** What is left when no call is in progress, for CbcProps. *)
From Verif Require Import CslRules Rc CslPool.
From Verif Require Import Common Block BlockFacts CMem CMemFacts Prog CbcModel CbcSpec CbcProofs CbcProofs2.

Notation cshare := (share obj (positive * val)).
(** Every buffer of l has a reference among these. *)
Definition refs_to (l : list buf) (X : gmultiset (positive * val)) : Prop := forall b c, (b, c) ∈ l -> exists bv, (b, inl bv) ∈ X /\ bcontent bv = c.
Lemma bufs_share (l : list buf) (r : cshare) : cholds (bufs l) r -> spiece r = pempty /\ (forall t, t ∈ stoks r -> t.1 ∈ map fst l) /\ refs_to l (stoks r).
Proof.
  revert r. induction l as [|[b c] l IH]; intros r H.
  { change (r = sempty) in H. subst r. split; [done|]. split; [intros; cbn [stoks sempty] in *; multiset_solver|]. intros b c Hin. by apply elem_of_nil in Hin. }
  destruct H as (r1&r2&->&_&H1&H2). destruct (IH _ H2) as (I1&I2&I3). destruct H1 as (bv&ra&rb&->&_&[Hra Hv]&H1). change (ra = sempty) in Hra. subst ra. rewrite sunion_empty_l. change (rb = Share pempty {[+ (b, inl bv) +]}) in H1. subst rb.
  unfold sunion. cbn [spiece stoks]. rewrite I1. split; [by rewrite punion_empty_l|]. split.
  - intros t Ht. rewrite gmultiset_elem_of_disj_union gmultiset_elem_of_singleton in Ht. destruct Ht as [->|Ht]; [left|right; by apply I2].
  - intros b' c' Hin. apply elem_of_cons in Hin as [[= -> ->]|Hin]; [exists bv; split; [multiset_solver|apply Hv]|]. destruct (I3 _ _ Hin) as (bv'&?&?). exists bv'. split; [multiset_solver|done].
Qed.
(** The parts of memory of the things that are held. *)
Definition held_share (hs : list held) (r : cshare) : Prop :=
  pmem (spiece r) = ∅ /\
  (forall h o, pobjs (spiece r) !! h = Some o -> exists l sp, Blk h l sp ∈ hs) /\
  (forall t, t ∈ stoks r -> (exists c, Buf t.1 c ∈ hs) \/ (exists l, Arr t.1 l ∈ hs) \/ exists k l sp, Blk k l sp ∈ hs /\ t.1 ∈ map fst l) /\
  (forall b c, Buf b c ∈ hs -> exists bv, (b, inl bv) ∈ stoks r /\ bcontent bv = c) /\
  (forall a l, Arr a l ∈ hs -> exists v, (a, inr v) ∈ stoks r /\ aview v = l) /\
  (forall k l sp, Blk k l sp ∈ hs -> pobjs (spiece r) !! k = Some (OCells (cells_of l ++ replicate sp None)) /\ refs_to l (stoks r)) /\
  (hs = [] -> r = sempty).
Lemma hold_share (hs : list held) (r : cshare) : cholds (hold hs) r -> held_share hs r.
Proof.
  revert r. induction hs as [|x hs IH]; intros r H.
  { change (r = sempty) in H. subst r. unfold held_share. cbn [sempty spiece stoks pempty pmem pobjs]. split_and!; try done; try (intros; set_solver). }
  destruct H as (r1&r2&->&Hd&H1&H2). destruct (IH _ H2) as (I1&I2&I3&I4&I5&I6&_). clear IH H2. unfold held_share.
  assert (Iold : forall t, t ∈ stoks r2 -> (exists c, Buf t.1 c ∈ x :: hs) \/ (exists l, Arr t.1 l ∈ x :: hs) \/ exists k l sp, Blk k l sp ∈ x :: hs /\ t.1 ∈ map fst l).
  { intros t Ht. destruct (I3 t Ht) as [(c&Hc)|[(l&Hc)|(k&l&sp&Hc&Hm)]]; [left; exists c; by right|right; left; exists l; by right|right; right; exists k, l, sp; split; [by right|done]]. }
  assert (Hmono : forall l X, refs_to l (stoks r2) -> refs_to l (X ⊎ stoks r2)). { intros l X Hl b c Hin. destruct (Hl b c Hin) as (bv&?&?). exists bv. split; [multiset_solver|done]. }
  destruct x as [b c|a l|k l sp].
  - destruct H1 as (v&ra&rb&->&_&[Hra Hv]&H1). change (ra = sempty) in Hra. subst ra. rewrite sunion_empty_l in Hd |- *. change (rb = Share pempty {[+ (b, inl v) +]}) in H1. subst rb. destruct Hv as [_ Hv]. simpl in Hv. unfold sunion. cbn [spiece stoks]. rewrite punion_empty_l. split_and!.
    + done.
    + intros h o Ho. destruct (I2 _ _ Ho) as (l&sp&?). exists l, sp. by right.
    + intros t Ht. rewrite gmultiset_elem_of_disj_union gmultiset_elem_of_singleton in Ht. destruct Ht as [->|Ht]; [left; exists c; by left|auto].
    + intros b' c' Hin. apply elem_of_cons in Hin as [[= -> ->]|Hin]; [exists v; split; [multiset_solver|done]|]. destruct (I4 _ _ Hin) as (v'&?&?). exists v'. split; [multiset_solver|done].
    + intros a l Hin. apply elem_of_cons in Hin as [?|Hin]; [done|]. destruct (I5 _ _ Hin) as (v'&?&?). exists v'. split; [multiset_solver|done].
    + intros k l sp Hin. apply elem_of_cons in Hin as [?|Hin]; [done|]. destruct (I6 _ _ _ Hin). auto.
    + done.
  - destruct H1 as (v&ra&rb&->&_&[Hra Hv]&H1). change (ra = sempty) in Hra. subst ra. rewrite sunion_empty_l in Hd |- *. change (rb = Share pempty {[+ (a, inr v) +]}) in H1. subst rb. destruct Hv as [_ Hv]. unfold sunion. cbn [spiece stoks]. rewrite punion_empty_l. split_and!.
    + done.
    + intros h o Ho. destruct (I2 _ _ Ho) as (l'&sp&?). exists l', sp. by right.
    + intros t Ht. rewrite gmultiset_elem_of_disj_union gmultiset_elem_of_singleton in Ht. destruct Ht as [->|Ht]; [right; left; exists l; by left|auto].
    + intros b' c' Hin. apply elem_of_cons in Hin as [?|Hin]; [done|]. destruct (I4 _ _ Hin) as (v'&?&?). exists v'. split; [multiset_solver|done].
    + intros a' l' Hin. apply elem_of_cons in Hin as [[= -> ->]|Hin]; [exists v; split; [multiset_solver|done]|]. destruct (I5 _ _ Hin) as (v'&?&?). exists v'. split; [multiset_solver|done].
    + intros k l' sp Hin. apply elem_of_cons in Hin as [?|Hin]; [done|]. destruct (I6 _ _ _ Hin). auto.
    + done.
  - destruct H1 as (ra&rb&->&_&[H1 Ht1]&H3). change (spiece ra = Piece ∅ {[k := OCells (cells_of l ++ replicate sp None)]}) in H1. destruct (bufs_share _ _ H3) as (E1&E2&E3). clear H3.
    assert (Ep : spiece (sunion ra rb) = Piece ∅ {[k := OCells (cells_of l ++ replicate sp None)]}). { unfold sunion. cbn [spiece]. by rewrite H1 E1 punion_empty_r. }
    assert (Et : stoks (sunion ra rb) = stoks rb). { unfold sunion. cbn [stoks]. rewrite Ht1. apply (left_id_L ∅ (⊎)). }
    remember (sunion ra rb) as r1 eqn:Er. clear Er H1 Ht1 E1. unfold sunion, sdisj, pdisj, punion in *. cbn [spiece stoks] in *. rewrite Ep Et in Hd |- *. cbn [pmem pobjs] in *. destruct Hd as [_ Hd]. rewrite map_disjoint_singleton_l in Hd. split_and!.
    + by rewrite I1 left_id_L.
    + intros h o Ho. apply lookup_union_Some_raw in Ho as [Ho|[_ Ho]]; [apply lookup_singleton_Some in Ho as [-> _]; exists l, sp; by left|]. destruct (I2 _ _ Ho) as (l'&sp'&?). exists l', sp'. by right.
    + intros t Ht. rewrite gmultiset_elem_of_disj_union in Ht. destruct Ht as [Ht|Ht]; [|auto]. right. right. exists k, l, sp. split; [by left|auto].
    + intros b' c' Hin. apply elem_of_cons in Hin as [?|Hin]; [done|]. destruct (I4 _ _ Hin) as (v'&?&?). exists v'. split; [multiset_solver|done].
    + intros a' l' Hin. apply elem_of_cons in Hin as [?|Hin]; [done|]. destruct (I5 _ _ Hin) as (v'&?&?). exists v'. split; [multiset_solver|done].
    + intros k' l' sp' Hin. apply elem_of_cons in Hin as [[= -> -> ->]|Hin].
      * split; [apply lookup_union_Some_l, lookup_singleton|]. intros b c Hb. destruct (E3 b c Hb) as (bv&?&?). exists bv. split; [multiset_solver|done].
      * destruct (I6 _ _ _ Hin) as [Ho Hr]. split; [|auto]. rewrite lookup_union_r //. rewrite lookup_singleton_ne //. intros ->. congruence.
    + done.
Qed.

(** The shared part. *)
Lemma elem_of_btoks (l : list (positive * bval)) t : t ∈ (list_to_set_disj (map btok l) : gmultiset (positive * val)) -> exists x, x ∈ l /\ t = btok x.
Proof.
  rewrite elem_of_list_to_set_disj elem_of_list_fmap. intros (x&->&Hx). by exists x.
Qed.
Lemma cells_in {A} (l : list (positive * A)) x : x ∈ l -> Some x.1 ∈ cells_of l.
Proof. intros Hx. apply elem_of_list_fmap. by exists x. Qed.
Lemma repr_share h v n sh : hholds (repr h v n) sh ->
  pmem sh = ∅ /\ pobjs sh !! h = Some (struct_of h v (Z.of_nat n)) /\ (forall h' o, pobjs sh !! h' = Some o -> h' = h \/ refers (struct_of h v (Z.of_nat n)) h') /\
  (forall t, t ∈ holds v -> exists h' o, pobjs sh !! h' = Some o /\ refers o t.1).
Proof.
  intros (s1&s2&->&Hd&H1&H2). change (s1 = Piece ∅ {[h := struct_of h v (Z.of_nat n)]}) in H1. subst s1. unfold punion, pdisj in *; cbn [pmem pobjs] in *. rewrite left_id_L. destruct Hd as [_ Hd]. rewrite map_disjoint_singleton_l in Hd.
  assert (Hself : forall X : gmap positive obj, ({[h := struct_of h v (Z.of_nat n)]} ∪ X) !! h = Some (struct_of h v (Z.of_nat n))). { intros X. apply lookup_union_Some_l, lookup_singleton. }
  assert (Hdirect : s2 = pempty -> (forall t, t ∈ holds v -> refers (struct_of h v (Z.of_nat n)) t.1) ->
    pmem s2 = ∅ /\ ({[h := struct_of h v (Z.of_nat n)]} ∪ pobjs s2) !! h = Some (struct_of h v (Z.of_nat n)) /\
    (forall h' o, ({[h := struct_of h v (Z.of_nat n)]} ∪ pobjs s2) !! h' = Some o -> h' = h \/ refers (struct_of h v (Z.of_nat n)) h') /\
    (forall t, t ∈ holds v -> exists h' o, ({[h := struct_of h v (Z.of_nat n)]} ∪ pobjs s2) !! h' = Some o /\ refers o t.1)).
  { intros -> Hr. split; [done|]. split; [auto|]. split.
    - intros h' o Ho. apply lookup_union_Some_raw in Ho as [Ho|[_ Ho]]; [apply lookup_singleton_Some in Ho as [-> _]; by left|done].
    - intros t Ht. exists h. eexists. split; [auto|auto]. }
  destruct v as [[c [|[[o off] m] vs]]|[[[[k sp]|] l] [|[[o off] m] vs]]].
  - apply Hdirect; [exact H2|]. intros t Ht. simpl in Ht. multiset_solver.
  - apply Hdirect; [exact H2|]. intros t Ht. simpl in Ht. rewrite gmultiset_elem_of_singleton in Ht. subst t. done.
  - clear Hdirect. change (s2 = Piece ∅ {[k := OCells (cells_of l ++ replicate sp None)]}) in H2. subst s2. cbn [pmem pobjs] in *. assert (k <> h) by (intros ->; by rewrite lookup_singleton in Hd). split; [done|]. split; [auto|]. split.
    + intros h' o Ho. apply lookup_union_Some_raw in Ho as [Ho|[_ Ho]]; [apply lookup_singleton_Some in Ho as [-> _]; by left|]. apply lookup_singleton_Some in Ho as [-> _]. right. simpl. right. right. done.
    + intros t Ht. simpl in Ht. destruct (elem_of_btoks _ _ Ht) as (x&Hx&->). exists k. eexists. split; [rewrite lookup_union_r; [apply lookup_singleton|by rewrite lookup_singleton_ne]|]. simpl. apply elem_of_app. left. by apply cells_in.
  - apply Hdirect; [exact H2|]. intros t Ht. simpl in Ht. rewrite gmultiset_elem_of_singleton in Ht. subst t. simpl. by right; left.
  - apply Hdirect; [exact H2|]. intros t Ht. simpl in Ht. destruct (elem_of_btoks _ _ Ht) as (x&Hx&->). simpl. left. by apply cells_in.
  - apply Hdirect; [exact H2|]. intros t Ht. simpl in Ht. rewrite gmultiset_elem_of_singleton in Ht. subst t. simpl. by right; left.
Qed.
Lemma reprs_share (G : gmap positive val) (N : positive -> val -> nat) sh : hholds ([∗ map] h ↦ v ∈ G, repr h v (N h v))%I sh ->
  pmem sh = ∅ /\
  (forall h v, G !! h = Some v -> pobjs sh !! h = Some (struct_of h v (Z.of_nat (N h v)))) /\
  (forall h o, pobjs sh !! h = Some o -> (exists v, G !! h = Some v) \/ exists h' o', pobjs sh !! h' = Some o' /\ refers o' h) /\
  (forall h v t, G !! h = Some v -> t ∈ holds v -> exists h' o, pobjs sh !! h' = Some o /\ refers o t.1).
Proof.
  revert sh. induction G as [|h v G Hn IH] using map_ind; intros sh H.
  { eapply (holds_mono _ emp) in H; [|by rewrite big_sepM_empty]. change (sh = pempty) in H. subst sh. split_and!; intros; done. }
  eapply holds_mono in H; [|rewrite big_sepM_insert //]. destruct H as (s1&s2&->&Hd&H1&H2). destruct (IH _ H2) as (I1&I2&I3&I4). destruct (repr_share _ _ _ _ H1) as (J1&J2&J3&J4). clear IH H1 H2.
  destruct Hd as [_ Hd]. unfold punion; cbn [pmem pobjs].
  assert (Hl : forall h o, pobjs s1 !! h = Some o -> (pobjs s1 ∪ pobjs s2) !! h = Some o) by (intros; by apply lookup_union_Some_l). assert (Hr : forall h o, pobjs s2 !! h = Some o -> (pobjs s1 ∪ pobjs s2) !! h = Some o) by (intros; by apply lookup_union_Some_r). split_and!.
  - by rewrite I1 J1 left_id_L.
  - intros h' v' Hs. apply lookup_insert_Some in Hs as [[-> ->]|[Hne Hs]]; auto.
  - intros h' o Hs. apply lookup_union_Some_raw in Hs as [Hs|[_ Hs]].
    + destruct (J3 _ _ Hs) as [->|Hf]; [left; exists v; by rewrite lookup_insert|]. right. exists h. eexists. split; [by apply Hl|done].
    + destruct (I3 _ _ Hs) as [(v'&Hv)|(h1&o1&?&?)]; [|right; exists h1, o1; auto]. left. destruct (decide (h = h')) as [->|Hne]; [exists v; by rewrite lookup_insert|]. exists v'. by rewrite lookup_insert_ne.
  - intros h' v' t Hs Ht. apply lookup_insert_Some in Hs as [[-> ->]|[Hne Hs]].
    + destruct (J4 _ Ht) as (h1&o1&?&?). exists h1, o1. auto.
    + destruct (I4 _ _ _ Hs Ht) as (h1&o1&?&?). exists h1, o1. auto.
Qed.
Lemma held_by_in (G : gmap positive val) t : t ∈ held_by holds G -> exists h v, G !! h = Some v /\ t ∈ holds v.
Proof.
  induction G as [|h v G Hn IH] using map_ind; intros H; [unfold held_by in H; rewrite map_fold_empty in H; multiset_solver|].
  rewrite held_by_insert // gmultiset_elem_of_disj_union in H. destruct H as [H|H]; [exists h, v; by rewrite lookup_insert|].
  destruct (IH H) as (h'&v'&Hs&Hi). exists h', v'. rewrite lookup_insert_ne //. congruence.
Qed.
(** What refers to something is further out. *)
Definition deepest (l : list (positive * bval)) : nat := foldr max 0 (map (fun x => length x.2.2) l).
Lemma deepest_in l x : x ∈ l -> length x.2.2 <= deepest l.
Proof. unfold deepest. induction l as [|y l IH]; [by rewrite elem_of_nil|]. rewrite elem_of_cons. simpl. intros [->|Hx]; [lia|]. specialize (IH Hx). lia. Qed.
Definition rank (v : val) : nat := match v with inl bv => length bv.2 | inr av => S (deepest av.1.2 + length av.2) end.
Lemma holds_rank v o v' : (o, v') ∈ holds v -> rank v' < rank v.
Proof.
  destruct v as [[c [|[[o' off] m] vs]]|[[mm l] [|[[o' off] m] vs]]]; cbn [holds]; intros Hin.
  - multiset_solver.
  - rewrite gmultiset_elem_of_singleton in Hin. injection Hin as -> ->. simpl. lia.
  - destruct (elem_of_btoks _ _ Hin) as (x&Hx&E). injection E as -> ->. simpl. pose proof (deepest_in _ _ Hx). lia.
  - rewrite gmultiset_elem_of_singleton in Hin. injection Hin as -> ->. simpl. lia.
Qed.
Lemma outermost (G : gmap positive val) : G <> ∅ -> exists h v, G !! h = Some v /\ (h, v) ∉ held_by holds G.
Proof.
  intros Hne. assert (exists h v, G !! h = Some v /\ forall h' v', G !! h' = Some v' -> rank v' <= rank v) as (h&v&Hs&Hmax).
  { clear -Hne. induction G as [|h v G Hn IH] using map_ind; [done|]. destruct (decide (G = ∅)) as [->|Hg].
    - exists h, v. rewrite lookup_insert. split; [done|]. intros h' v' Hs. rewrite insert_empty in Hs. by apply lookup_singleton_Some in Hs as [_ <-].
    - destruct (IH Hg) as (h1&v1&Hs1&Hm). destruct (decide (rank v <= rank v1)).
      + exists h1, v1. split; [rewrite lookup_insert_ne //; congruence|]. intros h' v' Hs. apply lookup_insert_Some in Hs as [[_ <-]|[_ Hs]]; [done|]. by eapply Hm.
      + exists h, v. rewrite lookup_insert. split; [done|]. intros h' v' Hs. apply lookup_insert_Some in Hs as [[_ <-]|[_ Hs]]; [done|]. specialize (Hm _ _ Hs). lia. }
  exists h, v. split; [done|]. intros Hin. destruct (held_by_in _ _ Hin) as (h'&v'&Hs'&Hi). pose proof (holds_rank _ _ _ Hi). specialize (Hmax _ _ Hs'). lia.
Qed.

Lemma idle_accounted (hs : list held) (s : cst) (r : cshare) (sh : piece obj) : cholds (hold hs) r -> pdisj (spiece r) sh -> CInv (stoks r) sh -> mem s = pmem (punion (spiece r) sh) -> objs s = pobjs (punion (spiece r) sh) -> accounted hs s.
Proof.
  intros Hr [Hd1 Hd2] (G&HG&HV&HC) Hm Ho. destruct (hold_share _ _ Hr) as (I1&I2&I3&I4&I5&I6&I7). destruct (reprs_share _ _ _ HG) as (J1&J2&J3&J4). unfold accounted. rewrite Hm Ho. unfold punion; cbn [pmem pobjs].
  assert (forall h o, pobjs sh !! h = Some o -> (pobjs (spiece r) ∪ pobjs sh) !! h = Some o) as Hright. { intros. by apply lookup_union_Some_r. }
  assert (forall h v, (h, v) ∈ stoks r -> exists n, (pobjs (spiece r) ∪ pobjs sh) !! h = Some (struct_of h v n)) as Hthere. { intros h v Hin. assert (G !! h = Some v) as Hs by (apply HV; multiset_solver). eexists. by apply Hright, J2. }
  split_and!.
  - intros b c Hin. destruct (I4 _ _ Hin) as (bv&Hv&<-). destruct (Hthere _ _ Hv) as (n&Hs). simpl in Hs. eauto.
  - intros a l Hin. destruct (I5 _ _ Hin) as (v&Hv&<-). destruct (Hthere _ _ Hv) as (n&Hs). simpl in Hs. eexists _, _. split; [exact Hs|]. simpl. by rewrite aview_len.
  - intros k l sp Hin. destruct (I6 _ _ _ Hin) as [Hs Hrf]. split; [by apply lookup_union_Some_l|]. intros b c Hb. destruct (Hrf _ _ Hb) as (bv&Hv&<-). destruct (Hthere _ _ Hv) as (n&Hs'). simpl in Hs'. eauto.
  - intros h o Hs. apply lookup_union_Some_raw in Hs as [Hs|[_ Hs]]; [right; right; left; by eapply I2|]. destruct (J3 _ _ Hs) as [(v&Hv)|(h'&o'&Ho'&Hf)]; [|right; right; right; exists h', o'; auto]. specialize (HC _ _ Hv).
    assert ((h, v) ∈ stoks r ⊎ held_by holds G) as Hin. { rewrite elem_of_multiplicity. unfold refs in HC. lia. }
    rewrite gmultiset_elem_of_disj_union in Hin. destruct Hin as [Hin|Hin].
    + destruct (I3 _ Hin) as [Hc|[Hc|(k&l&sp&Hc&Hk)]]; [by left|by right; left|]. right. right. right. destruct (I6 _ _ _ Hc) as [Hs' _]. exists k. eexists. split; [by apply lookup_union_Some_l|]. simpl. apply elem_of_app. left.
      apply elem_of_list_fmap in Hk as (x&Ex&Hx). simpl in Ex. rewrite Ex. by apply cells_in.
    + right. right. right. destruct (held_by_in _ _ Hin) as (h'&v'&Hs'&Hi). destruct (J4 _ _ _ Hs' Hi) as (h1&o1&?&?). exists h1, o1. auto.
  - intros ->. specialize (I7 eq_refl). subst r. change (stoks sempty) with (∅ : gmultiset (positive * val)) in *. assert (sh = pempty) as ->; [|split; apply (left_id_L ∅ (∪))].
    eapply (RInv_end repr holds repr_excl); [exact (ex_intro _ G (conj HG (conj HV HC)))|]. apply outermost.
Qed.
