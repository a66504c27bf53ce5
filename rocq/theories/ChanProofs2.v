(** Proofs about the channel: operations taken off the list without a partner. *)
From Verif Require Import Common Prog Conc ConcLists ChanModel ChanSpec ChanProofs.
Local Open Scope Z_scope.

(** An operation is taken off the list without a partner. *)
Lemma omap_filter_comm {A B} (f : A -> option B) (P : B -> Prop) (Q : A -> Prop) `{!forall x, Decision (P x)} `{!forall x, Decision (Q x)} (l : list A) :
  (forall x, x ∈ l -> match f x with Some y => P y <-> Q x | None => True end) -> filter P (omap f l) = omap f (filter Q l).
Proof.
  induction l as [|x l IH]; intros HH; [done|]. rewrite filter_cons. cbn [omap list_omap]. specialize (IH (fun y Hy => HH y (elem_of_list_further _ _ _ Hy))). specialize (HH x (elem_of_list_here _ _)).
  destruct (f x) as [y|] eqn:E; [|case_decide; cbn [omap list_omap]; rewrite ?E; done]. rewrite filter_cons. repeat case_decide; try (exfalso; tauto); cbn [omap list_omap]; rewrite ?E, IH; done.
Qed.
Lemma waiting_store h M G O q l w n k o x : store h M G O q l w n -> k ∈ q -> O !! k = Some o -> x ∈ cids o -> waiting h x.
Proof.
  intros Hs Hk Ho Hx. assert (G !! k = Some PQ) as Hg by (by apply (s_q _ _ _ _ _ _ _ _ Hs)). destruct (s_good _ _ _ _ _ _ _ _ Hs _ _ _ Ho Hg) as (_&_&Hsi&_). pose proof (s_pushes _ _ _ _ _ _ _ _ Hs) as P1. pose proof (s_pulls _ _ _ _ _ _ _ _ Hs) as P2.
  apply cids_in in Hx. destruct Hsi as [(y&E1&E2&E3)|(y&v&E1&E2&E3)]; destruct Hx as [Hx|Hx]; try congruence; assert (y = x) as -> by congruence.
  - assert (x ∈ omap (qpull O) q) as Hin by (apply elem_of_list_omap; exists k; unfold qpull; by rewrite Ho). destruct (s_kind _ _ _ _ _ _ _ _ Hs) as [Hn|Hn]; [|rewrite Hn in Hin; by inversion Hin].
    right. apply elem_of_list_lookup in Hin as [i Hi]. exists (length M + i)%nat. rewrite P1, P2, Hn, app_nil_r, map_length. split; [|lia]. rewrite lookup_app_r by (rewrite map_length; lia). rewrite map_length. by replace (length M + i - length M)%nat with i by lia.
  - assert ((x, v) ∈ omap (qpush O) q) as Hin by (apply elem_of_list_omap; exists k; unfold qpush; by rewrite Ho, E2, E3). destruct (s_kind _ _ _ _ _ _ _ _ Hs) as [Hn|Hn]; [rewrite Hn in Hin; by inversion Hin|].
    left. apply elem_of_list_lookup in Hin as [i Hi]. exists (length M + i)%nat, v. rewrite P1, P2, Hn, app_nil_r, map_length. split; [|lia]. rewrite lookup_app_r by (rewrite map_length; lia). rewrite map_length. by replace (length M + i - length M)%nat with i by lia.
Qed.
Lemma waiting_inv h M G O q l w n x : store h M G O q l w n -> waiting h x -> exists k o, k ∈ q /\ O !! k = Some o /\ x ∈ cids o.
Proof.
  intros Hs Hw. pose proof (s_pushes _ _ _ _ _ _ _ _ Hs) as P1. pose proof (s_pulls _ _ _ _ _ _ _ _ Hs) as P2. destruct Hw as [(i&d&Hi&Hlen)|(i&Hi&Hlen)].
  - rewrite P1 in Hi. rewrite P2, app_length, map_length in Hlen. rewrite lookup_app_r in Hi by (rewrite map_length; lia). apply elem_of_list_lookup_2, elem_of_list_omap in Hi as (k&Hk&Hq). exists k. unfold qpush in Hq. destruct (O !! k) as [o|]; [|done].
    exists o. split_and!; try done. apply push_cids. destruct (push o), (data o); by simplify_eq.
  - rewrite P2 in Hi. rewrite P1, app_length, map_length in Hlen. rewrite lookup_app_r in Hi by (rewrite map_length; lia). apply elem_of_list_lookup_2, elem_of_list_omap in Hi as (k&Hk&Hq). exists k. unfold qpull in Hq. destruct (O !! k) as [o|]; [|done].
    exists o. split_and!; try done. by apply pull_cids.
Qed.
Lemma single_cids o : single o -> exists x, cids o = [x].
Proof. intros [(x&E1&E2&_)|(x&d&E1&E2&_)]; exists x; unfold cids; by rewrite E1, E2. Qed.
Lemma store_withdraw h M G O q l w n k o o' x b g' l' : store h M G O q l w n -> k ∈ q -> O !! k = Some o -> cids o = [x] -> pull o' = pull o -> push o' = push o -> data o' = data o -> (forall y, stale o' = Some (Some y) -> (y < length O)%nat) ->
  g' <> PQ -> g' <> PW -> NoDup l' -> (forall j, j ∈ l' <-> (j = k /\ g' = PL) \/ j ∈ l) -> good (Withdrawn x b :: h) M k o' g' ->
  store (Withdrawn x b :: h) M (<[k := g']> G) (<[k := o']> O) (filter (.≠ k) q) l' w n.
Proof.
  intros Hs Hkq Ho Hx Ep1 Ep2 Ed Hst G1 G2 Nl' Hl' Hgood. assert (G !! k = Some PQ) as Hgk by (by apply (s_q _ _ _ _ _ _ _ _ Hs)). destruct (notin_place _ _ _ _ _ _ _ _ _ _ Hs Hgk) as (_&L2&L3).
  destruct Hs as [Hlen Hq Hl Hw Hg P1 P2 Hk N1 N2 H1 H2 H3 H4 H5 H6]. destruct (Hg _ _ _ Ho Hgk) as ([O1 O2]&Hcd&Hsi&Hres&Hch&Hse&Hun).
  assert (k < length G)%nat as HkG by (by eapply lookup_lt_Some). assert (k < length O)%nat as HkO by lia.
  assert (forall j, qpush (<[k := o']> O) j = qpush O j /\ qpull (<[k := o']> O) j = qpull O j) as E by (intros j; by eapply qp_insert).
  assert (forall y j, handle (Withdrawn x b :: h) y j -> handle h y j) as Hh. { intros y j [H|[d' H]]; apply elem_of_cons in H as [?|H]; try done; [by left|right; eauto]. }
  assert (forall j oj y, j ∈ q -> O !! j = Some oj -> y ∈ cids oj -> y <> x <-> j <> k) as Hiff.
  { intros j oj y Hj Hoj Hy. split; intros Hne Heq; apply Hne.
    - subst j. simplify_eq. rewrite Hx in Hy. by apply elem_of_list_singleton in Hy.
    - subst y. apply Hq in Hj. pose proof (Hg _ _ _ Hoj Hj) as (Hoo&_). pose proof (Hg _ _ _ Ho Hgk) as (Hook&_). eapply H3; eapply cids_handle; [exact Hoo|done|exact Hook|rewrite Hx; by left]. }
  assert (filter (fun p => p.1 ≠ x) (omap (qpush O) q) = omap (qpush O) (filter (.≠ k) q)) as F1.
  { apply omap_filter_comm. intros j Hj. unfold qpush. destruct (O !! j) as [oj|] eqn:Ej; [|done]. destruct (push oj) as [y|] eqn:Ey; [|done]. destruct (data oj); [|done]. cbn. eapply Hiff; [done..|]. by apply push_cids. }
  assert (filter (.≠ x) (omap (qpull O) q) = omap (qpull O) (filter (.≠ k) q)) as F2.
  { apply omap_filter_comm. intros j Hj. unfold qpull. destruct (O !! j) as [oj|] eqn:Ej; [|done]. destruct (pull oj) as [y|] eqn:Ey; [|done]. cbn. eapply Hiff; [done..|]. by apply pull_cids. }
  assert (x ∈ map fst (omap (qpush O) q) \/ x ∈ omap (qpull O) q) as Hin.
  { assert (x ∈ cids o) as Hxo by (rewrite Hx; by left). apply cids_in in Hxo. destruct Hsi as [(y&E1&E2&E3)|(y&v&E1&E2&E3)]; destruct Hxo as [Hxo|Hxo]; try congruence.
    - right. apply elem_of_list_omap. exists k. unfold qpull. by rewrite Ho.
    - left. apply elem_of_list_fmap. exists (x, v). split; [done|]. apply elem_of_list_omap. exists k. unfold qpush. by rewrite Ho, Hxo, E3. }
  assert (x ∉ map fst (map fst2 M) /\ x ∉ map snd M) as [M1 M2].
  { rewrite P1, P2, map_app in N1. apply NoDup_app in N1 as (A1&A2&A3). apply NoDup_app in A1 as (B1&B2&B3), A3 as (C1&C2&C3). split; intros Hm; destruct Hin as [Hi|Hi].
    - by apply (B2 x).
    - apply (A2 x); apply elem_of_app; [by left|by right].
    - apply (A2 x); apply elem_of_app; [by right|by left].
    - by apply (C2 x). }
  assert (pushes (Withdrawn x b :: h) = map fst2 M ++ omap (qpush O) (filter (.≠ k) q)) as E3. { cbn [pushes]. rewrite P1, filter_app, F1. f_equal. apply filter_id. intros p Hp Heq. apply M1. apply elem_of_list_fmap. by exists p. }
  assert (pulls (Withdrawn x b :: h) = map snd M ++ omap (qpull O) (filter (.≠ k) q)) as E4. { cbn [pulls]. rewrite P2, filter_app, F2. f_equal. apply filter_id. intros p Hp Heq. apply M2. by subst. }
  assert (map fst (pushes (Withdrawn x b :: h)) ++ pulls (Withdrawn x b :: h) `sublist_of` map fst (pushes h) ++ pulls h) as Esub.
  { cbn [pushes pulls]. apply sublist_app; [|apply filter_sublist]. clear. induction (pushes h) as [|p ps IH]; [done|]. rewrite filter_cons. case_decide; cbn; [by apply sublist_skip|by apply sublist_cons]. }
  split.
  - by rewrite !insert_length.
  - split; [by apply NoDup_filter, Hq|]. intros j. rewrite elem_of_list_filter. specialize (proj2 Hq j). destruct (decide (j = k)) as [->|Hne]; [rewrite list_lookup_insert by done; naive_solver|]. rewrite list_lookup_insert_ne by done. naive_solver.
  - split; [done|]. intros j. rewrite Hl', (proj2 Hl j). destruct (decide (j = k)) as [->|Hne]; [rewrite list_lookup_insert by done; naive_solver|]. rewrite list_lookup_insert_ne by done. naive_solver.
  - split; [apply Hw|]. intros j. rewrite (proj2 Hw j). destruct (decide (j = k)) as [->|Hne]; [rewrite list_lookup_insert by done; naive_solver|by rewrite list_lookup_insert_ne].
  - intros j oj gj Hj Hgj. apply lookup_upd in Hj as [(->&->&_)|[Hne Hj]]; [rewrite list_lookup_insert in Hgj by done; by simplify_eq|]. rewrite list_lookup_insert_ne in Hgj by done. eapply good_mono; [| | | |by apply Hg].
    + intros. by right.
    + done.
    + intros y _ (r0&pl0&ps0&d0&H). apply elem_of_cons in H as [?|H]; [done|]. by exists r0, pl0, ps0, d0.
    + intros (i0&sc&H). apply elem_of_cons in H as [?|H]; [done|]. left. by exists i0, sc.
  - rewrite E3. f_equal. apply omap_ext_in. intros j _. by rewrite (proj1 (E j)).
  - rewrite E4. f_equal. apply omap_ext_in. intros j _. by rewrite (proj2 (E j)).
  - rewrite (omap_ext_in _ (qpush O)) by (intros j _; apply (proj1 (E j))). rewrite (omap_ext_in (qpull _) (qpull O)) by (intros j _; apply (proj2 (E j))). rewrite <-F1, <-F2. destruct Hk as [-> | ->]; [by left|by right].
  - by eapply sublist_nodup.
  - intros y Hy. eapply N2, sublist_in; done.
  - intros y j Hy. eauto.
  - intros y Hy. destruct (H2 y Hy) as (j&oj&Hj&Hyj). destruct (decide (j = k)) as [->|Hne'].
    + exists k, o'. rewrite list_lookup_insert by done. split; [done|]. simplify_eq. unfold cids in *. by rewrite Ep1, Ep2.
    + exists j, oj. by rewrite list_lookup_insert_ne.
  - intros y j j' Hy Hy'. eauto.
  - intros y j j' d' Hy Hy'. apply elem_of_cons in Hy as [?|Hy]; [done|]. apply elem_of_cons in Hy' as [?|Hy']; [done|]. eauto.
  - intros j oj y d' Hj Hp Hd. right. apply lookup_upd in Hj as [(->&->&_)|[Hne Hj]]; [|by eauto]. rewrite Ep2 in Hp. rewrite Ed in Hd. eauto.
  - intros j oj y Hj Hy. rewrite insert_length. apply lookup_upd in Hj as [(->&->&_)|[Hne Hj]]; eauto.
Qed.
Lemma store_perm h M G O q l l' w n : l ≡ₚ l' -> store h M G O q l w n -> store h M G O q l' w n.
Proof. intros Hp [? ? [N Hl] ?]. split; try done. split; [by rewrite <-Hp|]. intros j. by rewrite <-Hp. Qed.
(** All are. *)
Lemma store_take h M G O q l w n : store h M G O q l w n -> Closing ∈ h -> all_ok h ->
  exists G', store (map (fun x => Withdrawn x true) (ids O q) ++ h) M G' O [] (l ++ q) w n /\ all_ok (map (fun x => Withdrawn x true) (ids O q) ++ h) /\ length G' = length G /\
    forall k, G' !! k = if decide (k ∈ q) then Some PL else G !! k.
Proof.
  revert h G l. induction q as [|k q IH] using rev_ind; intros h G l Hs Hc Hok.
  - exists G. rewrite app_nil_r. cbn. split_and!; try done.
  - assert (k ∈ q ++ [k]) as Hk by (apply elem_of_app; right; by left). pose proof (s_q _ _ _ _ _ _ _ _ Hs) as [Nq Hq]. assert (G !! k = Some PQ) as Hg by (by apply Hq). destruct (notin_place _ _ _ _ _ _ _ _ _ _ Hs Hg) as (_&L2&_).
    apply NoDup_app in Nq as (Nq&Hd&_). assert (k ∉ q) as Nk by (intros H; apply (Hd k H); by left).
    assert (is_Some (O !! k)) as [o Ho] by (apply lookup_lt_is_Some; rewrite <-(s_len _ _ _ _ _ _ _ _ Hs); by eapply lookup_lt_Some).
    destruct (s_good _ _ _ _ _ _ _ _ Hs _ _ _ Ho Hg) as ([O1 O2]&Hcd&Hsi&Hres&Hch&Hse&Hun). destruct (single_cids _ Hsi) as [x Hx].
    assert (filter (.≠ k) (q ++ [k]) = q) as Ef. { rewrite filter_app, filter_id by (intros y Hy ->; done). rewrite filter_cons, decide_False by (intros HH; by apply HH). by rewrite app_nil_r. }
    assert (store (Withdrawn x true :: h) M (<[k := PL]> G) O q (k :: l) w n) as Hs'.
    { rewrite <-(list_insert_id O k o Ho). rewrite <-Ef at 1. eapply store_withdraw; try done.
      - intros y Hy. by eapply (s_stale _ _ _ _ _ _ _ _ Hs).
      - constructor; [by apply L2|apply (s_l _ _ _ _ _ _ _ _ Hs)].
      - intros j. rewrite elem_of_cons. naive_solver.
      - split_and!; [split| |..]; try done.
        + intros y Hy. right. auto.
        + intros y Hy. destruct (O2 y Hy) as [d ?]. exists d. by right.
        + intros (i0&sc&H). apply elem_of_cons in H as [?|H]; [done|]. apply Hcd. by exists i0, sc.
        + intros y Hy (r0&pl0&ps0&d0&H). apply elem_of_cons in H as [?|H]; [done|]. apply (Hun y Hy). by exists r0, pl0, ps0, d0.
        + intros y Hy. rewrite Hx in Hy. apply elem_of_list_singleton in Hy as ->. by left. }
    assert (ids O (q ++ [k]) = ids O q ++ [x]) as Ei. { unfold ids. rewrite flat_map_app. f_equal. cbn. rewrite Ho, app_nil_r. apply Hx. }
    destruct (IH _ _ _ Hs') as (G'&Hs''&Hok'&Hl&HG').
    + by right.
    + split; [|done]. split; [|done]. eapply waiting_store; [done..|]. rewrite Hx. by left.
    + exists G'. rewrite Ei, map_app, <-app_assoc. cbn [map app]. split_and!; [|done| |].
      * eapply store_perm; [|done]. cbn. rewrite app_assoc, Permutation_cons_append. by rewrite <-app_assoc, (Permutation_app_comm q [k]) || by rewrite <-!app_assoc, (Permutation_app_comm [k] q).
      * by rewrite Hl, insert_length.
      * intros j. rewrite HG'. destruct (decide (j ∈ q)) as [Hj|Hj]; [by rewrite decide_True by (apply elem_of_app; by left)|]. destruct (decide (j = k)) as [->|Hne].
        -- rewrite list_lookup_insert by (by eapply lookup_lt_Some). by rewrite decide_True.
        -- rewrite list_lookup_insert_ne by done. rewrite decide_False; [done|]. rewrite elem_of_app, elem_of_list_singleton. by intros [?|?].
Qed.
