(** Proofs about the channel: cancellation, and every call. *)
From Verif Require Import Common Prog Conc ConcLists ChanModel ChanSpec ChanProofs ChanProofs2 ChanProofs3 ChanProofs4 ChanProofs5 ChanProofs6.
Local Open Scope Z_scope.

Section proofs.
Context (m : mode) (Hm : m <> Wild).
Notation Inv := (Inv m). Notation inv := (inv m).
Notation runs := (runs_ok (channel m) Inv (.= Out) blk shape).
Notation wpa := (wpa Inv blk shape).
Notation one b := (Nat.b2n b).
Ltac cb := cbn [add app set_ops sm is_open ops next queue local work closes hist execs].

Lemma cids_ne M k h o g : good h M k o g -> (g = PQ \/ g = PW \/ exists j, g = PC j) -> (0 < length (cids o))%nat.
Proof.
  intros (_&_&Hg) Hp. assert (single o \/ paired M o) as Hs.
  { destruct Hp as [->|[->|[j ->]]]; [left; apply Hg| |left; apply Hg]. destruct Hg as (Hs&_). destruct (result o); cbn in Hs; [by right| |left; apply Hs]. destruct Hs as [_ [?|[? _]]]; auto. }
  unfold cids. destruct Hs as [[(x&->&->&_)|(x&d&->&->&_)]|(x&d&y&->&->&_)]; cbn; lia.
Qed.
Lemma can_sm M G s ls i l k : inv M G s ls -> ls !! i = Some l -> canof k l = true -> sm s = 2%nat.
Proof.
  intros HI Hi Hl. destruct (cancel_place m Hm _ _ _ _ _ _ _ HI Hi Hl) as (o&g&Ho&Hg&Hgood&_&Hc&Hmo&Hp). pose proof (cids_ne _ _ _ _ _ Hgood Hp) as Hne. pose proof (total_ge _ _ _ _ _ Ho Hg) as Ht.
  assert (owes o g = length (cids o)) as Eo by (destruct Hp as [->|[->|[j ->]]]; done). destruct (i_sm _ _ _ _ _ HI) as [?|E3]; [rewrite (i_ex _ _ _ _ _ HI); lia|done|]. exfalso. pose proof (i_clr _ _ _ _ _ HI) as Hcc. rewrite E3 in Hcc. cbn in Hcc. destruct (cnt_ex closer ls) as (j&lj&Hj&Hcj); [lia|].
  assert (isclose lj = true) as Hcl by (by destruct lj as [| | | | | | | | | | | | | |[]| | | | | |]). pose proof (cnt_pos isclose ls j lj Hj Hcl). rewrite <-(i_cl _ _ _ _ _ HI) in *. pose proof (proj1 (i_calm _ _ _ _ _ HI Hmo) ltac:(lia) _ _ Ho). lia.
Qed.
(** An operation is changed, where it is. *)
Lemma inv_upd M G s ls i l l' k o o' g : inv M G s ls -> ls !! i = Some l -> ops s !! k = Some o -> G !! k = Some g -> pull o' = pull o -> push o' = push o -> data o' = data o -> stale o' = stale o -> cans o' = cans o -> urefs o' = urefs o ->
  (result o = CANCELLED -> result o' = CANCELLED) -> good (hist s) M k o' g -> inx l' = inx l -> (forall k, canof k l' = canof k l) -> isclose l' = isclose l -> closer l' = closer l -> opener l' = opener l -> (forall x, accof x l' = accof x l) ->
  (forall k g, mine i l k g <-> mine i l' k g) -> fine (set_ops s (<[k := o']> (ops s))) i l' -> Inv (set_ops s (<[k := o']> (ops s))) (<[i := l']> ls).
Proof.
  intros HI Hi Ho Hg E1 E2 E3 E4 E5 E6 E7 Hgood C1 C2 C3 C4 C5 C6 C7 Hf. eapply (inv_mid m M G s ls i l l' G _ [] HI Hi); cb; try done.
  - by right.
  - eapply store_same; [apply (i_store _ _ _ _ _ HI)|done..].
  - eapply own_same; [apply (i_own _ _ _ _ _ HI)|done..].
  - rewrite C1. pose proof (total_upd _ _ _ _ _ o' g Ho Hg) as Ht. rewrite (list_insert_id _ _ _ Hg) in Ht. assert (owes o' g = owes o g) as E by (unfold owes, cids; by rewrite E1, E2). clear -Ht E. lia.
  - by eapply keep_upd.
  - intros. by left.
  - apply (i_ok _ _ _ _ _ HI).
Qed.
Lemma good_can h M k o o' g : good h M k o g -> (g = PQ \/ g = PW \/ exists j, g = PC j) -> pull o' = pull o -> push o' = push o -> data o' = data o -> chan o' = chan o -> result o' = result o -> self o' = self o -> good h M k o' g.
Proof.
  intros (Hown&Hcd&Hg) Hp E1 E2 E3 E4 E5 E6. assert (single o -> single o') as Hs by (unfold single; by rewrite E1, E2, E3). assert (paired M o -> paired M o') as Hpa by (unfold paired; by rewrite E1, E2, E3).
  assert (unc h o -> unc h o') as Hu by (unfold unc, cids; by rewrite E1, E2). assert (forall b, wd h o b -> wd h o' b) as Hw by (unfold wd, cids; by rewrite E1, E2). split; [by unfold owned; rewrite E1, E2|]. split; [by rewrite E5|].
  destruct Hp as [->|[->|[j ->]]]; rewrite ?E4, ?E5, ?E6.
  - destruct Hg as (?&?&?&?&?). split_and!; auto.
  - destruct Hg as (Hse&?&?&?&?). split_and!; auto. destruct (result o); cbn in *; [by auto| |]; [destruct Hse as [? [?|[? ?]]]|destruct Hse]; auto.
  - destruct Hg as (?&?&?&?&?&?). split_and!; auto.
Qed.

(** async_op_cancel *)
Lemma runs_cancelled i k sc b : runs i (Cancel k sc) (Ret (State b)) (C5 k b).
Proof.
  apply wpa_ret; [done|]. intros s ls Hi [M [G HI]]. exists Out. split; [done|]. assert (canof k (C5 k b) = true) as Hc by (cbn; apply Nat.eqb_refl). destruct (cancel_place m Hm _ _ _ _ _ _ _ HI Hi Hc) as (o&g&Ho&Hg&Hgood&_&Hcn&Hmo&Hp).
  pose proof (i_fine _ _ _ _ _ HI _ _ Hi) as Hf. cbn [returns channel]. cbv zeta. cb. rewrite Ho. set (o' := set_cans o (pred (cans o))).
  assert (forall j, cancel_done (Returned i (Cancel k sc) (State b) :: hist s) j -> cancel_done (hist s) j \/ (j = k /\ b = true)) as Hd.
  { intros j (i0&sc0&[H|H]%elem_of_cons); [right|left; by exists i0, sc0]. injection H as -> -> _ <-. done. }
  eapply (inv_event m M G s ls i (C5 k b) Out G _ (Returned i (Cancel k sc) (State b)) HI Hi); cb; try done.
  - apply store_quiet; [done| |eapply store_same; [apply (i_store _ _ _ _ _ HI)|exact Ho|exact Hg|done..|]; by eapply good_can].
    intros j oj Hj Hdj. apply Hd in Hdj as [?|[-> ->]]; [by left|right]. rewrite list_lookup_insert in Hj by (by eapply lookup_lt_Some). injection Hj as <-. cbn in Hf. destruct Hf as (o1&Ho1&Hr). simplify_eq. done.
  - by eapply own_same; [apply (i_own _ _ _ _ _ HI)|..].
  - pose proof (total_upd _ _ _ _ _ o' g Ho Hg) as Ht. rewrite (list_insert_id _ _ _ Hg) in Ht. assert (owes o' g = owes o g) as E by done. clear -Ht E. lia.
  - by rewrite insert_length.
  - intros j oj Hj. apply lookup_upd in Hj as [(->&->&_)|[Hne Hj]].
    + exists o. split_and!; try done. rewrite Hc. cbn. clear -Hcn. lia.
    + exists oj. split_and!; try done. cbn. destruct (Nat.eqb_spec k j); [congruence|]. done.
  - intros Hmo' Hcl j oj Hj. exfalso. apply Hcn. by eapply (i_calm _ _ _ _ _ HI).
  - intros j Hj. destruct (Hd _ Hj) as [H|[-> _]]; [by apply (i_done _ _ _ _ _ HI)|by eapply lookup_lt_Some].
Qed.
Lemma st_mark A i o Q k l l' z : canof k l = true -> inx l' = inx l -> (forall k, canof k l' = canof k l) -> isclose l' = isclose l -> closer l' = closer l -> opener l' = opener l -> (forall x, accof x l' = accof x l) -> (forall k g, mine i l k g <-> mine i l' k g) ->
  (forall M G s ls, inv M G s ls -> ls !! i = Some l -> cancel_called (hist s) k /\ G !! k <> Some PQ) -> (forall s o, ops s !! k = Some o -> result o = CANCELLED -> cancel_called (hist s) k -> fine s i l') ->
  wpa A i o Q z l' -> wpa A i o Q (act* _ := mark_cancelled k in z) l.
Proof.
  intros X0 X1 C2 C3 C4 C5 C6 C7 Hpre Hf Hz. apply wpa_act; [by destruct l|]. intros s ls Hi [M [G HI]]. destruct (cancel_place m Hm _ _ _ _ _ _ _ HI Hi X0) as (oo&g&Ho&Hg&Hgood&Hfr&Hcn&Hmo&Hp). destruct (Hpre _ _ _ _ HI Hi) as [Hcc HnQ].
  unfold mark_cancelled, with_op. rewrite Ho, Hfr. assert (oo = oo) as _ by done. destruct (result oo) eqn:Er.
  - cbn [upd_op]. exists l'. split; [|done]. eapply (inv_upd M G s ls i l l' k oo); try done.
    + destruct Hgood as (Hown&Hcd&Hx). split; [done|]. split; [done|]. destruct Hp as [->|[->|[j ->]]]; [done|..].
      * destruct Hx as (Hs&?&?&?&?). rewrite Er in Hs. split_and!; cbn; try done. split; [done|by left].
      * destruct Hx as (?&?&?&?&?&?). split_and!; cbn; try done. by right.
    + eapply Hf; [cb; rewrite list_lookup_insert by (by eapply lookup_lt_Some); done|done|done].
  - exists l'. split; [|done]. eapply inv_skip; try done. by eapply Hf.
  - exfalso. destruct Hgood as (_&_&Hx). destruct Hp as [->|[->|[j ->]]]; [done|..].
    + by destruct Hx as (_&_&_&_&?).
    + destruct Hx as (_&[?|?]&_); congruence.
Qed.
Lemma runs_cancel i k : runs i (Cancel k true) (cancel k true) (C1 k).
Proof.
  assert (forall j, canof j (C1 j) = true /\ canof j (C2 j) = true /\ canof j (C2b j) = true /\ canof j (C4 j) = true /\ (forall b, canof j (C3 j b) = true)) as Hcan by (intros j; cbn; rewrite Nat.eqb_refl; done). destruct (Hcan k) as (K1&K2&K2b&K4&K3).
  unfold cancel. apply wpa_act; [done|]. intros s ls Hi [M [G HI]]. destruct (cancel_place m Hm _ _ _ _ _ _ _ HI Hi K1) as (oo&g&Ho&Hg&Hgood&Hfr&Hcn&Hmo&Hp). pose proof (i_fine _ _ _ _ _ HI _ _ Hi) as Hf. cbn in Hf.
  unfold cas_cancel, with_op. rewrite Ho, Hfr. destruct (cancelling oo); cbn [negb].
  { exists (C5 k false). split; [by eapply inv_skip|]. apply runs_cancelled. }
  exists (C1 k). split.
  { by eapply (inv_upd M G s ls i _ _ k oo). }
  clear s ls Hi M G HI oo g Ho Hg Hgood Hfr Hcn Hmo Hp Hf. apply wpa_act; [done|]. intros s ls Hi [M [G HI]]. destruct (cancel_place m Hm _ _ _ _ _ _ _ HI Hi K1) as (oo&g&Ho&Hg&Hgood&Hfr&Hcn&Hmo&Hp). pose proof (i_fine _ _ _ _ _ HI _ _ Hi) as Hf. cbn in Hf.
  unfold read_channel, with_op. rewrite Ho, Hfr. assert (chan oo = true) as Ech. { destruct Hgood as (_&_&Hx). destruct Hp as [->|[->|[j ->]]]; apply Hx. } rewrite Ech. exists (C1 k). split; [by eapply inv_skip|].
  clear s ls Hi M G HI oo g Ho Hg Hgood Hfr Hcn Hmo Hp Hf Ech. apply (st_begin m _ _ _ _ (C1 k) (C2 k)); try done.
  2: { intros M G s ls Hi HI Hs. by pose proof (can_sm _ _ _ _ _ _ _ HI Hi K1). }
  cbn [negb]. apply wpa_act; [done|]. intros s ls Hi [M [G HI]]. destruct (cancel_place m Hm _ _ _ _ _ _ _ HI Hi K2) as (oo&g&Ho&Hg&Hgood&Hfr&Hcn&Hmo&Hp). pose proof (i_fine _ _ _ _ _ HI _ _ Hi) as Hf. cbn in Hf. pose proof (i_store _ _ _ _ _ HI) as Hst.
  assert (runs i (Cancel k true) (Ret (State true)) (C5 k true)) as Hret by apply runs_cancelled.
  unfold take_off, with_op. rewrite Ho, Hfr. destruct (decide (k ∈ queue s)) as [Hq|Hq].
  - exists (C3 k false). split.
    + assert (G !! k = Some PQ) as Hg' by (by apply (s_q _ _ _ _ _ _ _ _ Hst)). assert (g = PQ) as -> by congruence. pose proof Hgood as (Hown&Hcd&Hsi&Hres&Hch&Hself&Hun).
      assert (exists x, option_list (pull oo) ++ option_list (push oo) = [x]) as [x Hx] by (destruct Hsi as [(x&->&->&_)|(x&d&->&->&_)]; by exists x). rewrite Hx. cbn [map app].
      set (o' := Chop (pull oo) (push oo) (data oo) (chan oo) (result oo) (Some None) (self oo) (urefs oo) (cancelling oo) (begun oo) (cans oo)). pose proof (total_upd _ _ _ _ _ o' (PC i) Ho Hg) as Ht.
      eapply (inv_mid m M G s ls i _ _ (<[k := PC i]> G) _ [Withdrawn x false] HI Hi); cb; try done.
      * intros j Hj. apply elem_of_list_filter in Hj. tauto.
      * by right.
      * repeat constructor.
      * eapply store_withdraw; [exact Hst|exact Hq|exact Ho|exact Hx|done|done|done|done|done|done|apply (s_l _ _ _ _ _ _ _ _ Hst)| |]; [intros j; split; [auto|by intros [[_ ?]|?]]|].
        assert (good (Withdrawn x false :: hist s) M k o' PQ) as (H1&H2&H3&H4&H5&H6&H7).
        { eapply (good_mono (hist s)); [intros e He; by right|done|..]; [| |eapply good_can; [exact Hgood|auto|done..]]; [|intros Hc; left; eapply done_cons; [|exact Hc]; done]. intros y _ (r&pl&ps&d&H). apply elem_of_cons in H as [?|H]; [done|]. by exists r, pl, ps, d. }
        split_and!; try done; [by left|]. intros y Hy. assert (y ∈ [x]) as ->%elem_of_list_singleton by (by rewrite <-Hx). by left.
      * eapply own_move; [apply (i_own _ _ _ _ _ HI)|exact Hi|exact Hg|..]; [| |by left|by right]; intros k0 g0; cbn; naive_solver.
      * clear -Ht. cbn in *. unfold cids in *. cbn in *. lia.
      * by eapply keep_upd.
      * intros. by left.
      * cbn. split; [|done]. destruct Hf as (i0&sc&?). exists i0, sc. by right.
      * split; [|apply (i_ok _ _ _ _ _ HI)]. assert (x ∈ cids oo) as Hxc by (unfold cids; rewrite Hx; by left). split; [by eapply waiting_store|]. exists k. split; [|done]. by eapply cids_handle.
    + clear s ls Hi M G HI oo g Ho Hg Hgood Hfr Hcn Hmo Hp Hf Hst Hq. apply (st_mark _ _ _ _ _ (C3 k false) (C3 k true)); try done.
      { intros M G s ls HI Hi. pose proof (i_fine _ _ _ _ _ HI _ _ Hi) as [Hf _]. split; [done|]. assert (G !! k = Some (PC i)) as ->; [|done]. apply (i_own _ _ _ _ _ HI k (PC i) i eq_refl). by exists (C3 k false). }
      { intros s o Ho Hr Hc. split; [done|]. intros _. by exists o. }
      apply wpa_act; [done|]. intros s ls Hi [M [G HI]]. destruct (cancel_place m Hm _ _ _ _ _ _ _ HI Hi (K3 true)) as (oo&g&Ho&Hg&Hgood&Hfr&Hcn&Hmo&Hp). pose proof (i_fine _ _ _ _ _ HI _ _ Hi) as [Hf Hr]. destruct (Hr eq_refl) as (o1&Ho1&Hr1). assert (o1 = oo) as -> by congruence.
      assert (G !! k = Some (PC i)) as Hg'. { apply (i_own _ _ _ _ _ HI k (PC i) i eq_refl). by exists (C3 k true). } cbn [schedule]. exists (C4 k). split.
      * eapply (inv_mid m M G s ls i _ _ (<[k := PW]> G) _ [] HI Hi); cb; try done.
        -- by right.
        -- eapply store_sched; [apply (i_store _ _ _ _ _ HI)|done..].
        -- eapply own_move; [apply (i_own _ _ _ _ _ HI)|exact Hi|exact Hg'|..]; [| |by right|by left]; intros k0 g0; cbn; naive_solver.
        -- pose proof (total_go _ _ _ _ _ PW Ho Hg') as Ht. clear -Ht. cbn in *. lia.
        -- apply keep_refl.
        -- intros. by left.
        -- by exists oo.
        -- apply (i_ok _ _ _ _ _ HI).
      * apply (inv_end m _ _ _ _ (C4 k) (C5 k true)); done.
  - destruct (decide (k ∈ local s)) as [Hlo|Hlo]. { apply (s_l _ _ _ _ _ _ _ _ Hst) in Hlo. destruct Hp as [->|[->|[j ->]]]; congruence. }
    assert (exists l', Inv s (<[i := l']> ls) /\ runs i (Cancel k true) (act* _ := mark_cancelled k in act* _ := exec_end in Ret (State true)) l') as Hgo.
    { exists (C2b k). split; [eapply inv_skip; try done; cbn; split_and!; try done; by eapply lookup_lt_Some|]. apply (st_mark _ _ _ _ _ (C2b k) (C4 k)); try done.
      - intros M' G' s' ls' HI' Hi'. pose proof (i_fine _ _ _ _ _ HI' _ _ Hi') as (Hf'&Hq'&_). split; [done|]. intros E. apply Hq'. by apply (s_q _ _ _ _ _ _ _ _ (i_store _ _ _ _ _ HI')).
      - intros s' o Ho' Hr _. by exists o.
      - apply (inv_end m _ _ _ _ (C4 k) (C5 k true)); done. }
    destruct (stale oo) as [[n|]|] eqn:Es; try exact Hgo. pose proof (s_stale _ _ _ _ _ _ _ _ Hst _ _ _ Ho Es) as Hn. destruct (lookup_lt_is_Some_2 _ _ Hn) as [on Hon]. rewrite Hon.
    assert (freed on = false) as ->; [|exact Hgo]. unfold freed. pose proof (proj2 (i_calm _ _ _ _ _ HI Hmo) _ _ Hon). destruct (Nat.eqb_spec (urefs on) 0); [done|]. apply andb_false_r.
Qed.

(** The calls *)
Lemma called_plain M G s ls i o l' : inv M G s ls -> ls !! i = Some Out -> inx l' = false -> (forall k, canof k l' = false) -> isclose l' = false -> closer l' = false -> opener l' = false -> (forall x, accof x l' = false) -> (forall k g, ~ mine i l' k g) ->
  fine (add [Called i o] s) i l' -> Inv (add [Called i o] s) (<[i := l']> ls).
Proof.
  intros HI Hi X1 X2 X3 X4 X5 X6 X7 Hf. assert (forall k, cancel_done (Called i o :: hist s) k -> cancel_done (hist s) k) as Hd by (intros k; by apply done_cons).
  eapply (inv_event m M G s ls i Out l' G _ (Called i o) HI Hi); cb; try done.
  - apply store_quiet; [done| |apply (i_store _ _ _ _ _ HI)]. intros k oo _ Hk. left. auto.
  - eapply own_same; [apply (i_own _ _ _ _ _ HI)|done|]. intros k g. split; [done|by intros ?%X7].
  - intros k oo Hoo. exists oo. rewrite X2. done.
  - intros k. by rewrite X2.
  - by rewrite X3.
  - intros x. by rewrite X6.
  - intros Hmo. apply (i_calm _ _ _ _ _ HI Hmo).
  - intros Hmo. apply (i_calm' _ _ _ _ _ HI Hmo).
  - intros k Hk. apply (i_done _ _ _ _ _ HI). auto.
Qed.
Lemma call_ok i o s s' ls l : ls !! i = Some l -> l = Out -> Inv s ls -> calls (channel m) i o s = Some s' -> exists l', Inv s' (<[i := l']> ls) /\ runs i o (code (channel m) i o) l'.
Proof.
  intros Hi -> [M [G HI]] Hc. cbn [calls channel] in Hc. destruct (calls_ok m o s) eqn:Hok; [|done]. injection Hc as <-. assert (forall k, cancel_done (Called i o :: hist s) k -> cancel_done (hist s) k) as Hd by (intros k; by apply done_cons).
  destruct o as [d alloc sched|alloc sched|k sched|k| | |k]; cbn [code channel calls_ok] in *; cbv zeta.
  - assert (sched = true) as -> by (by destruct m). exists Rq. split; [eapply called_plain; try done; intros k0 g0 F0; exact F0|]. by apply (runs_request m i _ false d alloc).
  - assert (sched = true) as -> by (by destruct m). exists Rq. split; [eapply called_plain; try done; intros k0 g0 F0; exact F0|]. by apply (runs_request m i _ true 0 alloc).
  - cb. destruct (ops s !! k) as [c|] eqn:Ho; [|done]. assert (m = NoReleases /\ sched = true /\ begun c = false /\ closes s = 0%nat) as (Hmo&->&Hbe&Hcl). { destruct m; try (by rewrite andb_false_r in Hok); [done|]. destruct sched, (begun c), (Nat.eqb_spec (closes s) 0); rewrite ?andb_false_r in Hok; done. }
    exists (C1 k). split; [|apply runs_cancel]. destruct (place_of _ _ _ _ _ _ _ HI Ho) as (g&Hg&Hgood).
    assert (g = PQ \/ g = PW \/ exists j, g = PC j) as Hp.
    { destruct g as [| | |j|j st r|]; [by left| |by right; left|by right; right; exists j|..].
      - exfalso. assert (sm s = 3%nat) as E3. { apply (i_loc _ _ _ _ _ HI). intros E. pose proof (proj2 (s_l _ _ _ _ _ _ _ _ (i_store _ _ _ _ _ HI)) k) as [_ Hx]. specialize (Hx Hg). rewrite E in Hx. by inversion Hx. }
        pose proof (i_clr _ _ _ _ _ HI) as Hcc. rewrite E3 in Hcc. cbn in Hcc. destruct (cnt_ex closer ls) as (j&lj&Hj&Hcj); [lia|]. assert (isclose lj = true) as Hcl' by (by destruct lj as [| | | | | | | | | | | | | |[]| | | | | |]). pose proof (cnt_pos isclose ls j lj Hj Hcl'). rewrite <-(i_cl _ _ _ _ _ HI) in *. lia.
      - destruct Hgood as (_&_&_&_&_&?&_). congruence.
      - destruct Hgood as (_&_&_&?&_). congruence. }
    set (o' := set_cans c (S (cans c))).
    eapply (inv_event m M G s ls i Out (C1 k) G _ (Called i (Cancel k true)) HI Hi); cb; try done.
    + apply store_quiet; [done| |eapply store_same; [apply (i_store _ _ _ _ _ HI)|exact Ho|exact Hg|done..|]; by eapply good_can]. intros j oj _ Hj. left. auto.
    + by eapply own_same; [apply (i_own _ _ _ _ _ HI)|..].
    + pose proof (total_upd _ _ _ _ _ o' g Ho Hg) as Ht. rewrite (list_insert_id _ _ _ Hg) in Ht. assert (owes o' g = owes c g) as E by done. clear -Ht E. lia.
    + by rewrite insert_length.
    + intros j oj Hj. apply lookup_upd in Hj as [(->&->&_)|[Hne Hj]].
      * exists c. split_and!; try done. cbn. rewrite Nat.eqb_refl. cbn. lia.
      * exists oj. split_and!; try done. cbn. destruct (Nat.eqb_spec k j); [congruence|]. done.
    + intros j Hj. apply Nat.eqb_eq in Hj. subst j. by eapply lookup_lt_Some.
    + intros j Hj. apply (i_done _ _ _ _ _ HI). auto.
    + exists i, true. by left.
  - cb. destruct (ops s !! k) as [c|] eqn:Ho; [|done]. assert (m <> NoReleases) as Hmo by (intros ->; by rewrite andb_false_r in Hok). exists Bz. split.
    2: { apply ret_same; try done; intros k0 g0 F0; exact F0. }
    destruct (place_of _ _ _ _ _ _ _ HI Ho) as (g&Hg&Hgood). set (o' := Chop _ _ _ _ _ _ _ _ _ _ _). 
    eapply (inv_event m M G s ls i Out Bz G _ (Called i (Release k)) HI Hi); cb; try done.
    + apply store_quiet; [done| |eapply store_same; [apply (i_store _ _ _ _ _ HI)|exact Ho|exact Hg|done..]]. intros j oj _ Hj. left. auto.
    + by eapply own_same; [apply (i_own _ _ _ _ _ HI)|..].
    + pose proof (total_upd _ _ _ _ _ o' g Ho Hg) as Ht. rewrite (list_insert_id _ _ _ Hg) in Ht. assert (owes o' g = owes c g) as E by done. clear -Ht E. lia.
    + by rewrite insert_length.
    + intros j oj Hj. apply lookup_upd in Hj as [(->&->&_)|[Hne Hj]]; [exists c|exists oj]; split_and!; done.
    + intros _ j oj Hj. apply lookup_upd in Hj as [(->&->&_)|[Hne Hj]]; [cbn|]; by eapply (i_calm' _ _ _ _ _ HI).
    + intros j Hj. apply (i_done _ _ _ _ _ HI). auto.
  - exists Bz. split; [eapply called_plain; try done; intros k0 g0 F0; exact F0|]. apply runs_open.
  - exists Cl. split; [|apply (runs_close m Hm)].
    eapply (inv_event m M G s ls i Out Cl G _ (Called i Close) HI Hi); cb; try done.
    + apply store_quiet; [done| |apply (i_store _ _ _ _ _ HI)]. intros j oj _ Hj. left. auto.
    + by eapply own_same; [apply (i_own _ _ _ _ _ HI)|..].
    + intros j oj Hj. exists oj. done.
    + cbn. lia.
    + intros -> _ j oj Hj. rewrite forallb_forall in Hok. specialize (Hok oj). rewrite <-elem_of_list_In in Hok. specialize (Hok (elem_of_list_lookup_2 _ _ _ Hj)). by apply Nat.eqb_eq in Hok.
    + intros Hmo. apply (i_calm' _ _ _ _ _ HI Hmo).
    + intros j Hj. apply (i_done _ _ _ _ _ HI). auto.
  - cb. apply andb_true_iff in Hok as [Hw Hok]. apply bool_decide_eq_true in Hw. pose proof (i_store _ _ _ _ _ HI) as Hst. assert (G !! k = Some PW) as Hg by (by apply (s_w _ _ _ _ _ _ _ _ Hst)). destruct (op_of _ _ _ _ _ _ _ HI Hg) as (c&Ho&Hgood). rewrite Ho in *.
    assert (cans c = 0%nat) as Hcn. { assert (m = NoReleases \/ m <> NoReleases) as [Hmo|Hmo] by (destruct m; auto); [|by eapply (i_calm' _ _ _ _ _ HI)]. rewrite Hmo in Hok. by apply Nat.eqb_eq in Hok. }
    exists (Ex false k 1 (result c)). split.
    2: { apply (wp_execute m Hm). apply ret_same; try done; intros k0 g0 F0; exact F0. }
    set (o' := Chop _ _ _ _ _ _ _ _ _ _ _). pose proof Hgood as (Hown&Hcd&Hse&Hch&Hself&Hun&Hna).
    eapply (inv_event m M G s ls i Out _ (<[k := PE i 1 (result c)]> G) _ (Called i (Work k)) HI Hi); cb; try done.
    + apply store_quiet; [done|intros j oj _ Hj; left; auto|]. eapply store_pick; [exact Hst|exact Ho|exact Hg|done..|]. split_and!; cbn; try done; intros x Hx; apply Hun; [by apply pull_cids|by apply push_cids].
    + eapply own_move; [apply (i_own _ _ _ _ _ HI)|exact Hi|exact Hg|..]; [| |by left|by right]; intros k0 g0; cbn; naive_solver.
    + pose proof (total_upd _ _ _ _ _ o' (PE i 1 (result c)) Ho Hg) as Ht. assert (owes o' (PE i 1 (result c)) = owes c PW) as E by done. clear -Ht E. lia.
    + by rewrite insert_length.
    + intros j oj Hj. apply lookup_upd in Hj as [(->&->&_)|[Hne Hj]]; [exists c|exists oj]; split_and!; done.
    + intros Hmo Hcl j oj Hj. apply lookup_upd in Hj as [(->&->&_)|[Hne Hj]]; [done|by eapply (i_calm _ _ _ _ _ HI)].
    + intros Hmo j oj Hj. apply lookup_upd in Hj as [(->&->&_)|[Hne Hj]]; [done|by eapply (i_calm' _ _ _ _ _ HI)].
    + intros j Hj. apply (i_done _ _ _ _ _ HI). auto.
Qed.
Lemma inv_start n : Inv start (replicate n Out).
Proof.
  exists [], []. assert (forall b : lst -> bool, b Out = false -> cnt b (replicate n Out) = 0%nat) as Hc by (intros b Hb; by apply cnt_replicate).
  split; cbn [start execs sm is_open ops next queue local work closes hist]; rewrite ?Hc by done; try done.
  - split; try done; try (split; [constructor|intros k; split; [by intros ?%elem_of_nil|done]]).
    + by left.
    + constructor.
    + intros x Hx. by inversion Hx.
    + intros x k [H|[d H]]; by inversion H.
    + intros x Hx. lia.
    + intros x k k' [H|[d H]]; by inversion H.
    + intros x k k' d H. by inversion H.
  - intros k g j _. split; [done|]. intros (l&Hl&Hmi). apply lookup_replicate in Hl as [-> _]. done.
  - intros k _. by rewrite Hc.
  - intros x. by rewrite Hc.
  - intros k (i&sc&H). by inversion H.
  - intros j l Hl. apply lookup_replicate in Hl as [-> _]. done.
Qed.
Theorem reach_inv n c : reachable (channel m) start n c -> conf_ok (channel m) Inv (.= Out) blk shape c.
Proof. eapply reach_ok; [exact call_ok|done|done|apply inv_start]. Qed.
End proofs.
