(** What is left when no call is in progress, for ConstBufProps. *)
From Verif Require Import CslRules Rc CslPool.
From Verif Require Import Common Block BlockFacts CMem CMemFacts Prog ConstBufModel ConstBufSpec ConstBufProofs ConstBufProofs2.

(** The parts of memory of the things that are held. *)
Definition held_share (hs : list held) (r : share cbuf (positive * val)) : Prop :=
  (forall h o, pobjs (spiece r) !! h = Some o -> exists b, Writable h b ∈ hs) /\
  (forall p b, pmem (spiece r) !! p = Some b -> exists l, Mem p l ∈ hs) /\
  (forall t, t ∈ stoks r -> exists c, Ref t.1 c ∈ hs) /\
  (forall h c, Ref h c ∈ hs -> exists v, (h, v) ∈ stoks r /\ content v = c) /\
  (forall p l, Mem p l ∈ hs -> pmem (spiece r) !! p = Some (bytes_block l)) /\
  (forall h b, Writable h b ∈ hs -> exists o, pobjs (spiece r) !! h = Some o /\ buffer_type o = Copied b) /\
  (hs = [] -> r = sempty).
Lemma hold_share hs r : cholds (hold hs) r -> held_share hs r.
Proof.
  revert r. induction hs as [|x hs IH]; intros r H.
  { change (r = sempty) in H. subst r. split_and!; try done; try (intros; set_solver). }
  destruct H as (r1&r2&->&Hd&H1&H2). destruct (IH _ H2) as (I1&I2&I3&I4&I5&I6&_). clear IH H2.
  unfold held_share. destruct x as [h c|p l|h b].
  - destruct H1 as (v&ra&rb&->&_&[Hra Hv]&H1). change (ra = sempty) in Hra. subst ra. rewrite sunion_empty_l in Hd |- *. change (rb = Share pempty {[+ (h, v) +]}) in H1. subst rb. destruct Hv as [_ Hv]. unfold sunion. cbn [spiece stoks]. rewrite punion_empty_l. split_and!.
    + intros. edestruct I1; [done|]. eexists. by right.
    + intros. edestruct I2; [done|]. eexists. by right.
    + intros t Ht. rewrite gmultiset_elem_of_disj_union gmultiset_elem_of_singleton in Ht. destruct Ht as [->|Ht]; [exists c; by left|]. edestruct I3; [done|]. eexists. by right.
    + intros h' c' Hin. apply elem_of_cons in Hin as [[= -> ->]|Hin]; [exists v; split; [multiset_solver|done]|]. destruct (I4 _ _ Hin) as (v'&?&?). exists v'. split; [multiset_solver|done].
    + intros p l Hin. apply elem_of_cons in Hin as [?|Hin]; [done|]. auto.
    + intros p l Hin. apply elem_of_cons in Hin as [?|Hin]; [done|]. auto.
    + done.
  - destruct H1 as [H1 Ht]. change (spiece r1 = Piece {[p := bytes_block l]} ∅) in H1. unfold sunion, sdisj, pdisj, punion in *. cbn [spiece stoks punion] in *. rewrite H1 Ht in Hd |- *. cbn [pmem pobjs] in *. rewrite !left_id_L. destruct Hd as [Hd _].
    rewrite map_disjoint_singleton_l in Hd. split_and!.
    + intros h o Ho. edestruct I1; [done|]. eexists. by right.
    + intros p' b Hb. apply lookup_union_Some_raw in Hb as [Hb|[_ Hb]]; [apply lookup_singleton_Some in Hb as [-> _]; exists l; by left|]. edestruct I2; [done|]. eexists. by right.
    + intros t Hin. edestruct I3; [done|]. eexists. by right.
    + intros h' c' Hin. apply elem_of_cons in Hin as [?|Hin]; [done|]. auto.
    + intros p' l' Hin. apply elem_of_cons in Hin as [[= -> ->]|Hin]; [apply lookup_union_Some_l, lookup_singleton|]. specialize (I5 _ _ Hin). rewrite lookup_union_r //. rewrite lookup_singleton_ne //. congruence.
    + intros h' b' Hin. apply elem_of_cons in Hin as [?|Hin]; [done|]. auto.
    + done.
  - destruct H1 as (ra&rb&->&_&[Hra Hb]&H1). change (ra = sempty) in Hra. subst ra. rewrite sunion_empty_l in Hd |- *. destruct H1 as [H1 Ht]. change (spiece rb = Piece ∅ {[h := CBuf (AStorage h 0) (Z.of_nat (length b)) (Copied b) 1]}) in H1.
    unfold sunion, sdisj, pdisj, punion in *. cbn [spiece stoks punion] in *. rewrite H1 Ht in Hd |- *. cbn [pmem pobjs] in *. rewrite !left_id_L. destruct Hd as [_ Hd]. rewrite map_disjoint_singleton_l in Hd. split_and!.
    + intros h' o Ho. apply lookup_union_Some_raw in Ho as [Ho|[_ Ho]]; [apply lookup_singleton_Some in Ho as [-> _]; exists b; by left|]. edestruct I1; [done|]. eexists. by right.
    + intros p' b' Hb'. edestruct I2; [done|]. eexists. by right.
    + intros t Hin. edestruct I3; [done|]. eexists. by right.
    + intros h' c' Hin. apply elem_of_cons in Hin as [?|Hin]; [done|]. auto.
    + intros h' b' Hin. apply elem_of_cons in Hin as [?|Hin]; [done|]. auto.
    + intros h' b' Hin. apply elem_of_cons in Hin as [[= -> ->]|Hin]; [eexists; split; [apply lookup_union_Some_l, lookup_singleton|done]|]. destruct (I6 _ _ Hin) as (o&Ho&Hk). exists o. rewrite lookup_union_r //. rewrite lookup_singleton_ne //. congruence.
    + done.
Qed.

(** The shared part. *)
Lemma repr_share h v n sh : hholds (repr h v n) sh -> pobjs sh = {[h := struct_of h v (Z.of_nat n)]} /\ (forall p b, pmem sh !! p = Some b -> owns (struct_of h v (Z.of_nat n)) p).
Proof.
  intros (s1&s2&->&Hd&H1&H2). change (s1 = Piece ∅ {[h := struct_of h v (Z.of_nat n)]}) in H1. subst s1. unfold punion; cbn [pmem pobjs]. rewrite left_id_L.
  unfold memory_of, owns, struct_of, kind_of, addr_of in *. destruct v as [lf vs]. cbn [fst snd] in *. cbn [buffer buffer_type].
  assert (forall q l, hholds (q ↦b bytes_block l)%I s2 -> pobjs s2 = ∅ /\ (forall p b, pmem s2 !! p = Some b -> p = q)) as Hblk.
  { intros q l H. change (s2 = Piece {[q := bytes_block l]} ∅) in H. subst s2. split; [done|]. intros p b Hp. cbn [pmem] in Hp. by apply lookup_singleton_Some in Hp as [-> _]. }
  destruct vs as [|[[o off] m] vs]; [|change (s2 = pempty) in H2; subst s2; cbn; rewrite right_id_L; split; [done|intros; done]].
  destruct lf as [[l|[[[q l]|] m]]|[[[q l] [o|]] m]]; cbn [lf_mem lf_addr lf_kind addr_v] in *; try (change (s2 = pempty) in H2; subst s2; cbn; rewrite right_id_L; split; [done|intros; done]);
    destruct (Hblk _ _ H2) as [-> Hb]; rewrite right_id_L; (split; [done|]); intros p b Hp; rewrite (Hb _ _ Hp); eauto.
Qed.
Lemma reprs_share (G : gmap positive val) (N : positive -> val -> nat) sh : hholds ([∗ map] h ↦ v ∈ G, repr h v (N h v))%I sh ->
  (forall h v, G !! h = Some v -> pobjs sh !! h = Some (struct_of h v (Z.of_nat (N h v)))) /\
  (forall h o, pobjs sh !! h = Some o -> exists v, G !! h = Some v) /\
  (forall p b, pmem sh !! p = Some b -> exists h o, pobjs sh !! h = Some o /\ owns o p).
Proof.
  revert sh. induction G as [|h v G Hn IH] using map_ind; intros sh H.
  { eapply (holds_mono _ emp) in H; [|by rewrite big_sepM_empty]. change (sh = pempty) in H. subst sh. split_and!; intros; done. }
  eapply holds_mono in H; [|rewrite big_sepM_insert //]. destruct H as (s1&s2&->&Hd&H1&H2). destruct (IH _ H2) as (I1&I2&I3). destruct (repr_share _ _ _ _ H1) as [Ho Hb].
  destruct Hd as [_ Hd]. rewrite Ho map_disjoint_singleton_l in Hd. unfold punion; cbn [pmem pobjs]. rewrite Ho. split_and!.
  - intros h' v' Hs. destruct (decide (h = h')) as [<-|Hne].
    + rewrite lookup_insert in Hs. injection Hs as <-. apply lookup_union_Some_l, lookup_singleton.
    + rewrite lookup_insert_ne // in Hs. rewrite lookup_union_r; [by apply I1|]. by rewrite lookup_singleton_ne.
  - intros h' o Hs. destruct (decide (h = h')) as [<-|Hne]; [exists v; by rewrite lookup_insert|]. rewrite lookup_insert_ne //. rewrite lookup_union_r in Hs; [by eapply I2|]. by rewrite lookup_singleton_ne.
  - intros p b Hp. apply lookup_union_Some_raw in Hp as [Hp|[_ Hp]].
    + exists h. eexists. split; [apply lookup_union_Some_l, lookup_singleton|]. by eapply Hb.
    + destruct (I3 _ _ Hp) as (h'&o&Hs&Hw). exists h', o. split; [|done]. rewrite lookup_union_r //. rewrite lookup_singleton_ne //. congruence.
Qed.
Lemma held_by_in (G : gmap positive val) t : t ∈ held_by holds G -> exists h v, G !! h = Some v /\ t ∈ holds v.
Proof.
  induction G as [|h v G Hn IH] using map_ind; intros H; [unfold held_by in H; rewrite map_fold_empty in H; multiset_solver|].
  rewrite held_by_insert // gmultiset_elem_of_disj_union in H. destruct H as [H|H]; [exists h, v; by rewrite lookup_insert|].
  destruct (IH H) as (h'&v'&Hs&Hi). exists h', v'. rewrite lookup_insert_ne //. congruence.
Qed.
Lemma holds_in v o v' : (o, v') ∈ holds v -> exists off n, v = (v'.1, (o, off, n) :: v'.2).
Proof. unfold holds. destruct v as [lf [|[[o' off] n] vs]]; simpl; [multiset_solver|]. rewrite gmultiset_elem_of_singleton. intros [= -> ->]. by exists off, n. Qed.
Lemma outermost (G : gmap positive val) : G <> ∅ -> exists h v, G !! h = Some v /\ (h, v) ∉ held_by holds G.
Proof.
  intros Hne. assert (exists h v, G !! h = Some v /\ forall h' v', G !! h' = Some v' -> length v'.2 <= length v.2) as (h&v&Hs&Hmax).
  { clear -Hne. induction G as [|h v G Hn IH] using map_ind; [done|]. destruct (decide (G = ∅)) as [->|Hg].
    - exists h, v. rewrite lookup_insert. split; [done|]. intros h' v' Hs. rewrite insert_empty in Hs. by apply lookup_singleton_Some in Hs as [_ <-].
    - destruct (IH Hg) as (h1&v1&Hs1&Hm). destruct (decide (length v.2 <= length v1.2)).
      + exists h1, v1. split; [rewrite lookup_insert_ne //; congruence|]. intros h' v' Hs. apply lookup_insert_Some in Hs as [[_ <-]|[_ Hs]]; [done|]. by eapply Hm.
      + exists h, v. rewrite lookup_insert. split; [done|]. intros h' v' Hs. apply lookup_insert_Some in Hs as [[_ <-]|[_ Hs]]; [done|]. specialize (Hm _ _ Hs). lia. }
  exists h, v. split; [done|]. intros Hin. destruct (held_by_in _ _ Hin) as (h'&v'&Hs'&Hi). destruct (holds_in _ _ _ Hi) as (off&n&->). specialize (Hmax _ _ Hs'). simpl in Hmax. lia.
Qed.

Lemma idle_accounted hs s r sh : cholds (hold hs) r -> pdisj (spiece r) sh -> CInv (stoks r) sh -> mem s = pmem (punion (spiece r) sh) -> objs s = pobjs (punion (spiece r) sh) -> accounted hs s.
Proof.
  intros Hr [Hd1 Hd2] (G&HG&HV&HC) Hm Ho. destruct (hold_share _ _ Hr) as (I1&I2&I3&I4&I5&I6&I7). destruct (reprs_share _ _ _ HG) as (J1&J2&J3). unfold accounted. rewrite Hm Ho. unfold punion; cbn [pmem pobjs].
  assert (forall h o, pobjs sh !! h = Some o -> (pobjs (spiece r) ∪ pobjs sh) !! h = Some o) as Hright. { intros. by apply lookup_union_Some_r. }
  split_and!.
  - intros h c Hin. destruct (I4 _ _ Hin) as (v&Hv&<-). assert (G !! h = Some v) as Hs by (apply HV; multiset_solver). eexists. split; [by apply Hright, J1|]. done.
  - intros p l Hin. apply lookup_union_Some_l. auto.
  - intros h b Hin. destruct (I6 _ _ Hin) as (o&Hs&Hk). exists o. split; [|done]. by apply lookup_union_Some_l.
  - intros h o Hs. apply lookup_union_Some_raw in Hs as [Hs|[_ Hs]]; [right; left; by eapply I1|]. destruct (J2 _ _ Hs) as (v&Hv). specialize (HC _ _ Hv).
    assert ((h, v) ∈ stoks r ⊎ held_by holds G) as Hin. { rewrite elem_of_multiplicity. unfold refs in HC. lia. }
    rewrite gmultiset_elem_of_disj_union in Hin. destruct Hin as [Hin|Hin]; [left; apply (I3 _ Hin)|]. right. right. destruct (held_by_in _ _ Hin) as (h'&v'&Hs'&Hi). destruct (holds_in _ _ _ Hi) as (off&n&->).
    exists h'. eexists. split; [by apply Hright, J1|]. done.
  - intros p b Hs. apply lookup_union_Some_raw in Hs as [Hs|[_ Hs]]; [left; by eapply I2|]. right. destruct (J3 _ _ Hs) as (h&o&Hs'&Hw). exists h, o. auto.
  - intros ->. specialize (I7 eq_refl). subst r. change (stoks sempty) with (∅ : gmultiset (positive * val)) in *. assert (sh = pempty) as ->; [|split; apply (left_id_L ∅ (∪))].
    eapply (RInv_end repr holds repr_excl); [exact (ex_intro _ G (conj HG (conj HV HC)))|]. apply outermost.
Qed.
