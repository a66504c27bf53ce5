(** What is left when no call is in progress, for RcsProps. *)
From Verif Require Import CslRules Rc CslPool.
From Verif Require Import Common Block BlockFacts CMem CMemFacts Prog RcsModel RcsSpec RcsProofs RcsProofs2.

Notation share := (share obj (positive * val)).
(** The references in some slots. *)
Lemma slots_share (L : list ref) (r : share) : cholds ([∗ list] x ∈ L, own_slot x)%I r ->
  spiece r = pempty /\ (forall t, t ∈ stoks r -> (t.1, what_of t.2) ∈ omap id L) /\ (forall h w, (h, w) ∈ omap id L -> exists v, (h, v) ∈ stoks r /\ what_of v = w).
Proof.
  revert r. induction L as [|x L IH]; intros r H.
  { change (r = sempty) in H. subst r. split; [done|]. split; [intros t Ht; multiset_solver|]. intros h w Hin. by apply elem_of_nil in Hin. }
  destruct H as (r1&r2&->&Hd&H1&H2). destruct (IH _ H2) as (I1&I2&I3). destruct x as [[h w]|].
  - destruct H1 as (v&ra&rb&->&_&[Hra Hv]&H1). change (ra = sempty) in Hra. subst ra. change (rb = Share pempty {[+ (h, v) +]}) in H1. subst rb. rewrite sunion_empty_l. destruct Hv as [_ Hv]. unfold sunion. cbn [spiece stoks]. rewrite punion_empty_l.
    split; [done|]. cbn [omap list_omap id]. split.
    + intros t Ht. rewrite gmultiset_elem_of_disj_union gmultiset_elem_of_singleton in Ht. destruct Ht as [->|Ht]; [simpl; rewrite Hv; left|]. right. by apply I2.
    + intros h' w' Hin. apply elem_of_cons in Hin as [[= -> ->]|Hin]; [exists v; split; [multiset_solver|done]|]. destruct (I3 _ _ Hin) as (v'&?&?). exists v'. split; [multiset_solver|done].
  - change (r1 = sempty) in H1. subst r1. rewrite sunion_empty_l. done.
Qed.
Lemma refs_of_arr a l : refs_of (Arr a l) = omap id (refs_in l).
Proof. simpl. induction l as [|[[h s]|] l IH]; [done|change ((h, TheString s) :: omap (λ x : sref, (λ '(h, s), (h, TheString s)) <$> x) l = (h, TheString s) :: omap id (refs_in l)); by rewrite IH|exact IH]. Qed.

Definition one (x : held) (r : share) : Prop :=
  (forall h o, pobjs (spiece r) !! h = Some o -> (exists l, x = Arr h l) \/ (exists k n l, x = Tup h k n l) \/ (exists a l n, x = Arr a l /\ pobjs (spiece r) !! a = Some (OArr (Some h) n))) /\
  (forall p b, pmem (spiece r) !! p = Some b -> exists l, x = Mem p l) /\
  (forall t, t ∈ stoks r -> (t.1, what_of t.2) ∈ refs_of x) /\
  (forall h w, (h, w) ∈ refs_of x -> exists v, (h, v) ∈ stoks r /\ what_of v = w) /\
  (forall p l, x = Mem p l -> pmem (spiece r) !! p = Some (bytes_block l)) /\
  (forall a l, x = Arr a l -> exists p, pobjs (spiece r) !! a = Some (OArr p (Z.of_nat (length l))) /\ match p with Some p => pobjs (spiece r) !! p = Some (OCells (cells_with l)) | None => l = [] end) /\
  (forall t k n l, x = Tup t k n l -> pobjs (spiece r) !! t = Some (OTup n (cells_with l))).
Lemma own_one x r : cholds (own x) r -> one x r.
Proof.
  intros H. unfold one. destruct x as [h w|p l|a l|t k n l].
  - destruct (slots_share [Some (h, w)] r) as (I1&I2&I3).
    { eapply cholds_mono; [|exact H]. simpl. iIntros "$". }
    rewrite I1. split_and!; try done; intros; simpl in *; try done; auto.
  - destruct H as [H Ht]. change (spiece r = Piece {[p := bytes_block l]} ∅) in H. rewrite H Ht. cbn [pmem pobjs]. split_and!; try done.
    + intros p' b Hb. apply lookup_singleton_Some in Hb as [<- _]. eauto.
    + intros t Hin. multiset_solver.
    + intros h w Hin. by apply elem_of_nil in Hin.
    + intros p' l' [= -> ->]. apply lookup_singleton.
  - destruct H as (sp&ra&rb&->&Hd&[Ha Hta]&H2). change (spiece ra = Piece ∅ {[a := OArr sp (Z.of_nat (length l))]}) in Ha. destruct sp as [p|].
    + destruct H2 as (rc&rd&->&_&[Hc Htc]&H3). change (spiece rc = Piece ∅ {[p := OCells (cells_with (refs_in l))]}) in Hc. rewrite cells_refs in Hc. destruct (slots_share _ _ H3) as (I1&I2&I3). unfold sunion, sdisj, pdisj, punion in *. cbn [spiece stoks] in *. rewrite Ha Hta Hc Htc I1 in Hd |- *. unfold pempty in *. cbn [pmem pobjs] in *.
      rewrite !left_id_L !right_id_L in Hd |- *. destruct Hd as [_ Hd]. rewrite map_disjoint_singleton_l in Hd. assert (p <> a) as Hne. { intros ->. by rewrite lookup_singleton in Hd. }
      rewrite refs_of_arr. split_and!; try done.
      * intros h o Hs. apply lookup_union_Some_raw in Hs as [Hs|[_ Hs]]; apply lookup_singleton_Some in Hs as [<- _]; [eauto|]. right. right. exists a, l. eexists. split; [done|]. apply lookup_union_Some_l, lookup_singleton.
      * intros a' l' [= -> ->]. exists (Some p). split; [apply lookup_union_Some_l, lookup_singleton|]. rewrite lookup_union_r; [apply lookup_singleton|]. by rewrite lookup_singleton_ne.
    + destruct H2 as [Hb H2]. change (l = []) in H2. change (rb = sempty) in Hb. subst rb l. rewrite sunion_empty_r. rewrite Ha Hta. cbn [pmem pobjs]. split_and!; try done.
      * intros h o Hs. apply lookup_singleton_Some in Hs as [<- _]. eauto.
      * intros t Hin. multiset_solver.
      * intros h w Hin. by apply elem_of_nil in Hin.
      * intros a' l' [= -> ->]. exists None. split; [apply lookup_singleton|done].
  - destruct H as (re&rf&->&_&[He Hl]&rc&rd&->&_&[Hc Htc]&H3). change (re = sempty) in He. subst re. rewrite sunion_empty_l. change (spiece rc = Piece ∅ {[t := OTup n (cells_with l)]}) in Hc. destruct (slots_share _ _ H3) as (I1&I2&I3). unfold sunion, punion in *. cbn [spiece stoks] in *. rewrite Hc Htc I1. unfold pempty. cbn [pmem pobjs].
    rewrite !left_id_L !right_id_L. split_and!; try done.
    + intros h o Hs. apply lookup_singleton_Some in Hs as [<- _]. eauto 6.
    + intros t' k' n' l' [= -> -> -> ->]. apply lookup_singleton.
Qed.

Definition held_share (hs : list held) (r : share) : Prop :=
  (forall h o, pobjs (spiece r) !! h = Some o -> (exists l, Arr h l ∈ hs) \/ (exists k n l, Tup h k n l ∈ hs) \/ (exists a l n, Arr a l ∈ hs /\ pobjs (spiece r) !! a = Some (OArr (Some h) n))) /\
  (forall p b, pmem (spiece r) !! p = Some b -> exists l, Mem p l ∈ hs) /\
  (forall t, t ∈ stoks r -> exists x, x ∈ hs /\ (t.1, what_of t.2) ∈ refs_of x) /\
  (forall x h w, x ∈ hs -> (h, w) ∈ refs_of x -> exists v, (h, v) ∈ stoks r /\ what_of v = w) /\
  (forall p l, Mem p l ∈ hs -> pmem (spiece r) !! p = Some (bytes_block l)) /\
  (forall a l, Arr a l ∈ hs -> exists p, pobjs (spiece r) !! a = Some (OArr p (Z.of_nat (length l))) /\ match p with Some p => pobjs (spiece r) !! p = Some (OCells (cells_with l)) | None => l = [] end) /\
  (forall t k n l, Tup t k n l ∈ hs -> pobjs (spiece r) !! t = Some (OTup n (cells_with l))) /\
  (hs = [] -> r = sempty).
Lemma hold_share hs r : cholds (hold hs) r -> held_share hs r.
Proof.
  revert r. induction hs as [|x hs IH]; intros r H.
  { change (r = sempty) in H. subst r. split_and!; try done; intros; try set_solver; multiset_solver. }
  destruct H as (r1&r2&->&Hd&H1&H2). destruct (IH _ H2) as (I1&I2&I3&I4&I5&I6&I7&_). apply own_one in H1 as (J1&J2&J3&J4&J5&J6&J7). clear IH H2.
  destruct Hd as [Hd1 Hd2]. unfold held_share, sunion, punion. cbn [spiece stoks pmem pobjs].
  assert (forall h o, pobjs (spiece r1) !! h = Some o -> (pobjs (spiece r1) ∪ pobjs (spiece r2)) !! h = Some o) as U1 by (intros; by apply lookup_union_Some_l).
  assert (forall h o, pobjs (spiece r2) !! h = Some o -> (pobjs (spiece r1) ∪ pobjs (spiece r2)) !! h = Some o) as U2 by (intros; by apply lookup_union_Some_r).
  split_and!.
  - intros h o Hs. apply lookup_union_Some_raw in Hs as [Hs|[_ Hs]].
    + destruct (J1 _ _ Hs) as [(l&->)|[(k&n&l&->)|(a&l&n&->&Ha)]]; [left; exists l; left|right; left; exists k, n, l; left|right; right; exists a, l, n; split; [left|auto]].
    + destruct (I1 _ _ Hs) as [(l&Hl)|[(k&n&l&Hl)|(a&l&n&Hl&Ha)]]; [left; exists l; by right|right; left; exists k, n, l; by right|right; right; exists a, l, n; split; [by right|auto]].
  - intros p b Hs. apply lookup_union_Some_raw in Hs as [Hs|[_ Hs]]; [destruct (J2 _ _ Hs) as (l&->); exists l; left|destruct (I2 _ _ Hs) as (l&Hl); exists l; by right].
  - intros t Ht. rewrite gmultiset_elem_of_disj_union in Ht. destruct Ht as [Ht|Ht]; [exists x; split; [left|auto]|]. destruct (I3 _ Ht) as (y&?&?). exists y. split; [by right|done].
  - intros y h w Hy Hw. apply elem_of_cons in Hy as [->|Hy]; [destruct (J4 _ _ Hw) as (v&?&?)|destruct (I4 _ _ _ Hy Hw) as (v&?&?)]; exists v; (split; [multiset_solver|done]).
  - intros p l Hy. apply elem_of_cons in Hy as [Hy|Hy]; [apply lookup_union_Some_l; auto|apply lookup_union_Some_r; auto].
  - intros a l Hy. apply elem_of_cons in Hy as [Hy|Hy]; [destruct (J6 a l) as (p&Hp&Hc)|destruct (I6 a l) as (p&Hp&Hc)]; auto; exists p; (split; [auto|]); destruct p; auto.
  - intros t k n l Hy. apply elem_of_cons in Hy as [Hy|Hy]; [eauto|eauto].
  - done.
Qed.

(** The shared part. *)
Lemma repr_share h v n sh : hholds (repr h v n) sh ->
  pobjs sh = {[h := struct_of v (Z.of_nat n)]} /\ (forall p b, pmem sh !! p = Some b -> owns (struct_of v (Z.of_nat n)) p) /\ (forall p, owns (struct_of v (Z.of_nat n)) p -> is_Some (pmem sh !! p)).
Proof.
  intros (s1&s2&->&Hd&H1&H2). change (s1 = Piece ∅ {[h := struct_of v (Z.of_nat n)]}) in H1. subst s1. unfold punion; cbn [pmem pobjs]. rewrite left_id_L.
  destruct v as [[[s|[q l]]|[[q l] off]]|[[q c] [[l m]|]]]; cbn [memory_of struct_of owns] in *.
  - change (s2 = pempty) in H2. subst s2. cbn. rewrite right_id_L. done.
  - change (s2 = Piece {[q := bytes_block l]} ∅) in H2. subst s2. cbn [pmem pobjs]. rewrite right_id_L. split; [done|]. split.
    + intros p b Hp. by apply lookup_singleton_Some in Hp as [-> _].
    + intros p [= ->]. rewrite lookup_singleton. by eexists.
  - change (s2 = Piece {[q := bytes_block l]} ∅) in H2. subst s2. cbn [pmem pobjs]. rewrite right_id_L. split; [done|]. split.
    + intros p b Hp. by apply lookup_singleton_Some in Hp as [-> _].
    + intros p ->. rewrite lookup_singleton. by eexists.
  - destruct H2 as (s3&s4&->&Hd2&H3&H4). change (s3 = Piece {[q := bytes_block l]} ∅) in H3. change (s4 = Piece {[c := bytes_block m]} ∅) in H4. subst s3 s4. unfold punion; cbn [pmem pobjs]. rewrite !right_id_L. split; [done|]. split.
    + intros p b Hp. apply lookup_union_Some_raw in Hp as [Hp|[_ Hp]]; apply lookup_singleton_Some in Hp as [-> _]; auto.
    + intros p [->| ->].
      * eexists. apply lookup_union_Some_l, lookup_singleton.
      * eexists. apply lookup_union_Some_r; [apply Hd2|apply lookup_singleton].
  - change (s2 = pempty) in H2. subst s2. cbn. rewrite right_id_L. done.
Qed.
Lemma reprs_share (G : gmap positive val) (N : positive -> val -> nat) sh : hholds ([∗ map] h ↦ v ∈ G, repr h v (N h v))%I sh ->
  (forall h v, G !! h = Some v -> pobjs sh !! h = Some (struct_of v (Z.of_nat (N h v)))) /\
  (forall h o, pobjs sh !! h = Some o -> exists v, G !! h = Some v) /\
  (forall p b, pmem sh !! p = Some b -> exists h o, pobjs sh !! h = Some o /\ owns o p) /\
  (forall h v p, G !! h = Some v -> owns (struct_of v (Z.of_nat (N h v))) p -> is_Some (pmem sh !! p)).
Proof.
  revert sh. induction G as [|h v G Hn IH] using map_ind; intros sh H.
  { eapply (holds_mono _ emp) in H; [|by rewrite big_sepM_empty]. change (sh = pempty) in H. subst sh. split_and!; intros; done. }
  eapply holds_mono in H; [|rewrite big_sepM_insert //]. destruct H as (s1&s2&->&Hd&H1&H2). destruct (IH _ H2) as (I1&I2&I3&I4). destruct (repr_share _ _ _ _ H1) as (Ho&Hb&Hc).
  destruct Hd as [Hd1 Hd]. rewrite Ho map_disjoint_singleton_l in Hd. unfold punion; cbn [pmem pobjs]. rewrite Ho. split_and!.
  - intros h' v' Hs. destruct (decide (h = h')) as [<-|Hne].
    + rewrite lookup_insert in Hs. injection Hs as <-. apply lookup_union_Some_l, lookup_singleton.
    + rewrite lookup_insert_ne // in Hs. rewrite lookup_union_r; [by apply I1|]. by rewrite lookup_singleton_ne.
  - intros h' o Hs. destruct (decide (h = h')) as [<-|Hne]; [exists v; by rewrite lookup_insert|]. rewrite lookup_insert_ne //. rewrite lookup_union_r in Hs; [by eapply I2|]. by rewrite lookup_singleton_ne.
  - intros p b Hp. apply lookup_union_Some_raw in Hp as [Hp|[_ Hp]].
    + exists h. eexists. split; [apply lookup_union_Some_l, lookup_singleton|]. by eapply Hb.
    + destruct (I3 _ _ Hp) as (h'&o&Hs&Hw). exists h', o. split; [|done]. rewrite lookup_union_r //. rewrite lookup_singleton_ne //. congruence.
  - intros h' v' p Hs Hw. destruct (decide (h = h')) as [<-|Hne].
    + rewrite lookup_insert in Hs. injection Hs as <-. destruct (Hc _ Hw) as [b Hp]. exists b. by apply lookup_union_Some_l.
    + rewrite lookup_insert_ne // in Hs. destruct (I4 _ _ _ Hs Hw) as [b Hp]. exists b. by apply lookup_union_Some_r.
Qed.
Lemma held_by_none (G : gmap positive val) : held_by holds G = ∅.
Proof. induction G as [|h v G Hn IH] using map_ind; [unfold held_by; by rewrite map_fold_empty|]. rewrite held_by_insert // IH right_id_L. done. Qed.
Lemma struct_what v n : is_what (struct_of v n) (what_of v).
Proof. by destruct v as [[[s|[q l]]|[[q l] off]]|[[q c] [[l m]|]]]. Qed.

Lemma idle_accounted hs s r sh : cholds (hold hs) r -> pdisj (spiece r) sh -> CInv (stoks r) sh -> mem s = pmem (punion (spiece r) sh) -> objs s = pobjs (punion (spiece r) sh) -> accounted hs s.
Proof.
  intros Hr [Hd1 Hd2] (G&HG&HV&HC) Hm Ho. destruct (hold_share _ _ Hr) as (I1&I2&I3&I4&I5&I6&I7&I8). destruct (reprs_share _ _ _ HG) as (J1&J2&J3&J4). unfold accounted. rewrite Hm Ho. unfold punion; cbn [pmem pobjs].
  assert (forall h o, pobjs sh !! h = Some o -> (pobjs (spiece r) ∪ pobjs sh) !! h = Some o) as Hright. { intros. by apply lookup_union_Some_r. }
  assert (forall h o, pobjs (spiece r) !! h = Some o -> (pobjs (spiece r) ∪ pobjs sh) !! h = Some o) as Hleft. { intros. by apply lookup_union_Some_l. }
  split_and!.
  - intros x h w Hin Hw. destruct (I4 _ _ _ Hin Hw) as (v&Hv&<-). assert (G !! h = Some v) as Hs by (apply HV; multiset_solver). eexists. split; [by apply Hright, J1|]. split; [apply struct_what|].
    intros p Hp. destruct (J4 _ _ _ Hs Hp) as [b Hb]. exists b. by apply lookup_union_Some_r.
  - intros p l Hin. apply lookup_union_Some_l. auto.
  - intros a l Hin. destruct (I6 _ _ Hin) as (p&Hp&Hc). exists p. split; [auto|]. destruct p; auto.
  - eauto.
  - intros h o Hs. apply lookup_union_Some_raw in Hs as [Hs|[_ Hs]].
    + right. destruct (I1 _ _ Hs) as [?|[?|(a&l&n&Hl&Ha)]]; [auto|auto|]. right. right. exists a, l, n. auto.
    + left. destruct (J2 _ _ Hs) as (v&Hv). specialize (HC _ _ Hv). rewrite (J1 _ _ Hv) in Hs. injection Hs as <-. assert ((h, v) ∈ stoks r) as Hin. { rewrite elem_of_multiplicity. unfold refs in HC. rewrite held_by_none right_id_L in HC. lia. }
      destruct (I3 _ Hin) as (x&Hx&Hw). exists x, (what_of v). split; [done|]. split; [done|]. apply struct_what.
  - intros p b Hs. apply lookup_union_Some_raw in Hs as [Hs|[_ Hs]]; [left; by eapply I2|]. right. destruct (J3 _ _ Hs) as (h&o&Hs'&Hw). exists h, o. auto.
  - intros ->. specialize (I8 eq_refl). subst r. change (stoks sempty) with (∅ : gmultiset (positive * val)) in *. assert (sh = pempty) as ->; [|split; apply (left_id_L ∅ (∪))].
    eapply (RInv_end repr holds repr_excl); [exact (ex_intro _ G (conj HG (conj HV HC)))|]. intros G' Hne. apply map_choose in Hne as (h&v&Hs). exists h, v. split; [done|]. rewrite held_by_none. multiset_solver.
Qed.
