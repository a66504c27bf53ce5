(** Proofs about the channel: the callbacks of an operation. *)
From Verif Require Import Common Prog Conc ConcLists ChanModel ChanSpec ChanProofs ChanProofs2 ChanProofs3.
Local Open Scope Z_scope.

Lemma store_go h M G O q l w n k o g g' : store h M G O q l w n -> O !! k = Some o -> G !! k = Some g -> good h M k o g' -> unlisted g -> unlisted g' -> store h M (<[k := g']> G) O q l w n.
Proof. intros Hs Ho Hg Hgood U V. rewrite <-(list_insert_id O k o Ho). by eapply store_priv; eauto. Qed.
Lemma total_go O G k o g g' : O !! k = Some o -> G !! k = Some g -> (total O (<[k := g']> G) + owes o g = total O G + owes o g')%nat.
Proof. intros Ho Hg. pose proof (total_upd O G k o g o g' Ho Hg) as H. by rewrite (list_insert_id O k o Ho) in H. Qed.
Lemma partners_store h M G O q l w n x d y : store h M G O q l w n -> (x, d, y) ∈ M -> partners h x d y.
Proof.
  intros Hs Hin. apply elem_of_list_lookup in Hin as [i Hi]. exists i. rewrite (s_pushes _ _ _ _ _ _ _ _ Hs), (s_pulls _ _ _ _ _ _ _ _ Hs). split; apply lookup_app_l_Some; [change (map fst2 M) with (fst2 <$> M)|change (map snd M) with (snd <$> M)]; rewrite list_lookup_fmap, Hi; done.
Qed.
Lemma event_callback h M G O q l w n k o i st r x d : store h M G O q l w n -> O !! k = Some o -> good h M k o (PE i (S st) r) -> x ∈ cids o -> ~ called_back h x -> ((pull o = Some x /\ d = data o) \/ (push o = Some x /\ d = None)) ->
  event_ok (Callback x r (pull o) (push o) d) h.
Proof.
  intros Hs Ho (How&Hcd&Hse&_&_&_&_&Hr&_) Hx Hnc Hd. cbn in Hr. split; [done|]. split.
  - exists k. split_and!; [by eapply cids_handle| |].
    + intros Hc. by rewrite <-Hr, Hcd.
    + intros ->. apply Hse.
  - assert (paired M o -> with_partner h x (pull o) (push o) d) as Hp.
    { intros (y&v&z&E1&E2&E3&Hin). exists y, v, z. split_and!; try done; [by eapply partners_store|]. rewrite E1, E2, E3 in Hd. destruct Hd as [[[= ->] ->]|[[= ->] ->]]; [by left|by right]. }
    assert (single o -> by_itself x (pull o) (push o) d) as Hb.
    { intros [(y&E1&E2&E3)|(y&v&E1&E2&E3)]; rewrite E1, E2 in *; destruct Hd as [[Hd ->]|[Hd ->]]; simplify_eq; split; auto. }
    destruct r; cbn in Hse.
    + auto.
    + destruct Hse as [_ [?|[? Hw]]]; [by left; auto|right; auto].
    + destruct Hse as [? Hw]. auto.
Qed.
Lemma called_cons h x r pl ps d y : called_back (Callback x r pl ps d :: h) y <-> y = x \/ called_back h y.
Proof.
  split.
  - intros (r0&pl0&ps0&d0&H). apply elem_of_cons in H as [[= -> -> -> -> ->]|H]; [by left|right]. by exists r0, pl0, ps0, d0.
  - intros [->|(r0&pl0&ps0&d0&H)]; [exists r, pl, ps, d; by left|]. exists r0, pl0, ps0, d0. by right.
Qed.
Lemma done_cons e h k : (forall i sc, e <> Returned i (Cancel k sc) (State true)) -> cancel_done (e :: h) k -> cancel_done h k.
Proof. intros He (i0&sc&H). apply elem_of_cons in H as [<-|H]; [by destruct (He i0 sc)|]. by exists i0, sc. Qed.

Section proofs.
Context (m : mode) (Hm : m <> Wild).
Notation Inv := (Inv m). Notation inv := (inv m).
Notation runs := (runs_ok (channel m) Inv (.= Out) blk shape).
Notation wpa := (wpa Inv blk shape).

Lemma ex_at M G s ls i c k st r : inv M G s ls -> ls !! i = Some (Ex c k st r) -> exists o, ops s !! k = Some o /\ G !! k = Some (PE i st r) /\ good (hist s) M k o (PE i st r) /\ freed o = false.
Proof.
  intros HI Hi. assert (G !! k = Some (PE i st r)) as Hg. { apply (i_own _ _ _ _ _ HI k (PE i st r) i eq_refl). exists (Ex c k st r). by split. }
  destruct (op_of _ _ _ _ _ _ _ HI Hg) as (o&Ho&Hgood). exists o. split_and!; try done. apply self_alive. apply Hgood.
Qed.
Lemma own_ex G ls i c k st st' r : owners G ls -> ls !! i = Some (Ex c k st r) -> G !! k = Some (PE i st r) -> owners (<[k := PE i st' r]> G) (<[i := Ex c k st' r]> ls).
Proof. intros Ho Hi Hg. eapply own_move; try done; [| |by right|by right]; intros k0 g0; cbn; naive_solver. Qed.
Lemma un_ex i st r : unlisted (PE i st r).
Proof. by split_and!. Qed.
Notation after c := (if c then Cl1 else Bz).
Lemma ex_fine M G s ls i c k st r : inv M G s ls -> ls !! i = Some (Ex c k st r) -> c = true -> is_open s = false.
Proof. intros HI Hi. apply (i_fine _ _ _ _ _ HI _ _ Hi). Qed.


Lemma st_read A i o Q c k r z : wpa A i o Q (z r) (Ex c k 2 r) -> wpa A i o Q (act* r := read_result k in z r) (Ex c k 1 r).
Proof.
  intros Hz. apply wpa_act; [done|]. intros s ls Hi [M [G HI]]. destruct (ex_at _ _ _ _ _ _ _ _ _ HI Hi) as (oo&Ho&Hg&Hgood&Hfr). unfold read_result, with_op. rewrite Ho, Hfr. destruct Hgood as (Hown&Hcd&Hse&Hself&Hcan&Hbe&Hch&Hr&Hpl&Hps). rewrite Hch by lia. assert (chan oo = true) as Hch' by (apply Hch; lia).
  cbn in Hr. rewrite Hr. exists (Ex c k 2 r). split; [|done].
  pose proof (i_store _ _ _ _ _ HI) as Hst. eapply (inv_mid m M G s ls i _ _ (<[k := PE i 2 r]> G) s [] HI Hi); try done.
  - by right.
  - eapply store_go; [done..| |by apply un_ex|by apply un_ex]. by split_and!.
  - eapply own_ex; [apply (i_own _ _ _ _ _ HI)|done..].
  - pose proof (total_go _ _ _ _ _ (PE i 2 r) Ho Hg) as Ht. clear -Ht. cbn in *. lia.
  - apply keep_refl.
  - intros H. by left.
  - cbn. by eapply ex_fine.
  - apply (i_ok _ _ _ _ _ HI).
Qed.
Lemma st_ends A i o Q c k r z : wpa A i o Q z (Ex c k 3 r) -> wpa A i o Q (act* _ := end_execs k in z) (Ex c k 2 r).
Proof.
  intros Hz. apply wpa_act; [done|]. intros s ls Hi [M [G HI]]. destruct (ex_at _ _ _ _ _ _ _ _ _ HI Hi) as (oo&Ho&Hg&Hgood&Hfr). unfold end_execs, with_op. rewrite Ho, Hfr. destruct Hgood as (Hown&Hcd&Hse&Hself&Hcan&Hbe&Hch&Hr&Hpl&Hps). rewrite Hch by lia. assert (chan oo = true) as Hch' by (apply Hch; lia).
  set (n := (_ + _)%nat). assert (n = length (cids oo)) as Hn by (unfold n, cids; destruct (pull oo), (push oo); done). pose proof (i_ex _ _ _ _ _ HI) as Hex. pose proof (total_ge _ _ _ _ _ Ho Hg) as Hge. cbn in Hge.
  destruct (Nat.leb_spec n (execs s)) as [Hle|Hle]; [|clear -Hle Hn Hex Hge; lia]. exists (Ex c k 3 r). split; [|done].
  pose proof (i_store _ _ _ _ _ HI) as Hst. eapply (inv_mid m M G s ls i _ _ (<[k := PE i 3 r]> G) _ [] HI Hi); cbn [sm is_open ops next queue local work closes hist execs]; try done.
  - by right.
  - eapply store_go; [done..| |by apply un_ex|by apply un_ex]. by split_and!.
  - eapply own_ex; [apply (i_own _ _ _ _ _ HI)|done..].
  - pose proof (total_go _ _ _ _ _ (PE i 3 r) Ho Hg) as Ht. clear -Ht Hle Hn. cbn in *. lia.
  - apply keep_refl.
  - intros H. left. clear -H. lia.
  - cbn. by eapply ex_fine.
  - apply (i_ok _ _ _ _ _ HI).
Qed.
Lemma st_clear A i o Q c k r z : wpa A i o Q z (Ex c k 4 r) -> wpa A i o Q (act* _ := clear_channel k in z) (Ex c k 3 r).
Proof.
  intros Hz. apply wpa_act; [done|]. intros s ls Hi [M [G HI]]. destruct (ex_at _ _ _ _ _ _ _ _ _ HI Hi) as (oo&Ho&Hg&Hgood&Hfr). unfold clear_channel, with_op. rewrite Ho, Hfr. destruct Hgood as (Hown&Hcd&Hse&Hself&Hcan&Hbe&Hch&Hr&Hpl&Hps).
  cbn [upd_op]. exists (Ex c k 4 r). split; [|done].
  pose proof (i_store _ _ _ _ _ HI) as Hst. eapply (inv_mid m M G s ls i _ _ (<[k := PE i 4 r]> G) _ [] HI Hi); cbn [set_ops sm is_open ops next queue local work closes hist execs]; try done.
  - by right.
  - eapply store_priv; [exact Hst|exact Ho|exact Hg|..|by apply un_ex|by apply un_ex]; [done|done|by left|done|]. split_and!; cbn; try done. intros; lia.
  - eapply own_ex; [apply (i_own _ _ _ _ _ HI)|done..].
  - pose proof (total_upd _ _ _ _ _ (Chop (pull oo) (push oo) (data oo) false (result oo) (stale oo) (self oo) (urefs oo) (cancelling oo) (begun oo) (cans oo)) (PE i 4 r) Ho Hg) as Ht. clear -Ht. cbn in *. lia.
  - by eapply keep_upd.
  - intros H. by left.
  - cbn. by eapply ex_fine.
  - apply (i_ok _ _ _ _ _ HI).
Qed.
Lemma st_call_pull A i o Q c k r z : wpa A i o Q z (Ex c k 5 r) -> wpa A i o Q (act* _ := call_pull k r in z) (Ex c k 4 r).
Proof.
  intros Hz. apply wpa_act; [done|]. intros s ls Hi [M [G HI]]. destruct (ex_at _ _ _ _ _ _ _ _ _ HI Hi) as (oo&Ho&Hg&Hgood&Hfr). unfold call_pull, with_op. rewrite Ho, Hfr. pose proof Hgood as Hgood0. destruct Hgood as ([O1 O2]&Hcd&Hse&Hself&Hcan&Hbe&Hch&Hr&Hpl&Hps).
  pose proof (i_store _ _ _ _ _ HI) as Hst. destruct (pull oo) as [x|] eqn:Epx; (exists (Ex c k 5 r); split; [|done]).
  - eapply (inv_mid m M G s ls i _ _ (<[k := PE i 5 r]> G) _ [_] HI Hi); cbn [add app set_ops sm is_open ops next queue local work closes hist execs]; try done.
    + by right.
    + by repeat constructor.
    + eapply store_callback; [done..|by apply pull_cids|]. split_and!; try done.
      * split; [intros y Hy; right; auto; apply O1; congruence|]. intros y Hy. destruct (O2 y Hy) as [d ?]. exists d. by right.
      * intros Hc. apply Hcd. eapply done_cons; [|exact Hc]. done.
      * eapply settle_mono; [| |exact Hse]; [intros; by right|done].
      * intros; lia.
      * intros y Hy. simplify_eq. cbn. apply called_cons. by left.
      * intros y Hy. cbn. rewrite called_cons. intros [->|Hc]; [|by apply (Hps y Hy)]. destruct (O2 _ Hy) as [d Hd]. eapply (s_kinds _ _ _ _ _ _ _ _ Hst); [by apply O1|done].
    + eapply own_ex; [apply (i_own _ _ _ _ _ HI)|done..].
    + pose proof (total_go _ _ _ _ _ (PE i 5 r) Ho Hg) as Ht. clear -Ht. cbn in *; lia.
    + apply keep_refl.
    + intros H. by left.
    + cbn. by eapply ex_fine.
    + split; [|apply (i_ok _ _ _ _ _ HI)]. rewrite <-Epx. eapply event_callback; try done; [by apply pull_cids|by apply Hpl|left; by rewrite Epx].
  - eapply (inv_mid m M G s ls i _ _ (<[k := PE i 5 r]> G) _ [] HI Hi); try done.
    + by right.
    + eapply store_go; [done..| |by apply un_ex|by apply un_ex]. split_and!; try done; [split; [intros y Hy; congruence|done]|intros; lia|]. intros y Hy. congruence.
    + eapply own_ex; [apply (i_own _ _ _ _ _ HI)|done..].
    + pose proof (total_go _ _ _ _ _ (PE i 5 r) Ho Hg) as Ht. clear -Ht. cbn in *; lia.
    + apply keep_refl.
    + intros H. by left.
    + cbn. by eapply ex_fine.
    + apply (i_ok _ _ _ _ _ HI).
Qed.
Lemma st_call_push A i o Q c k r z : wpa A i o Q z (Ex c k 6 r) -> wpa A i o Q (act* _ := call_push k r in z) (Ex c k 5 r).
Proof.
  intros Hz. apply wpa_act; [done|]. intros s ls Hi [M [G HI]]. destruct (ex_at _ _ _ _ _ _ _ _ _ HI Hi) as (oo&Ho&Hg&Hgood&Hfr). unfold call_push, with_op. rewrite Ho, Hfr. pose proof Hgood as Hgood0. destruct Hgood as ([O1 O2]&Hcd&Hse&Hself&Hcan&Hbe&Hch&Hr&Hpl&Hps).
  pose proof (i_store _ _ _ _ _ HI) as Hst. destruct (push oo) as [x|] eqn:Epx; (exists (Ex c k 6 r); split; [|done]).
  - eapply (inv_mid m M G s ls i _ _ (<[k := PE i 6 r]> G) _ [_] HI Hi); cbn [add app set_ops sm is_open ops next queue local work closes hist execs]; try done.
    + by right.
    + by repeat constructor.
    + eapply store_callback; [done..|by apply push_cids|]. split_and!; try done.
      * split; [intros y Hy; right; auto|]. intros y Hy. destruct (O2 y) as [d ?]; [congruence|]. exists d. by right.
      * intros Hc. apply Hcd. eapply done_cons; [|exact Hc]. done.
      * eapply settle_mono; [| |exact Hse]; [intros; by right|done].
      * intros; lia.
      * intros y Hy. cbn. apply called_cons. right. by apply (Hpl y Hy).
      * intros y Hy. simplify_eq. cbn. apply called_cons. by left.
    + eapply own_ex; [apply (i_own _ _ _ _ _ HI)|done..].
    + pose proof (total_go _ _ _ _ _ (PE i 6 r) Ho Hg) as Ht. clear -Ht. cbn in *; lia.
    + apply keep_refl.
    + intros H. by left.
    + cbn. by eapply ex_fine.
    + split; [|apply (i_ok _ _ _ _ _ HI)]. rewrite <-Epx. eapply event_callback; try done; [by apply push_cids|by apply Hps|right; by rewrite Epx].
  - eapply (inv_mid m M G s ls i _ _ (<[k := PE i 6 r]> G) _ [] HI Hi); try done.
    + by right.
    + eapply store_go; [done..| |by apply un_ex|by apply un_ex]. split_and!; try done; [split; [done|intros y Hy; congruence]|intros; lia|]. intros y Hy. congruence.
    + eapply own_ex; [apply (i_own _ _ _ _ _ HI)|done..].
    + pose proof (total_go _ _ _ _ _ (PE i 6 r) Ho Hg) as Ht. clear -Ht. cbn in *; lia.
    + apply keep_refl.
    + intros H. by left.
    + cbn. by eapply ex_fine.
    + apply (i_ok _ _ _ _ _ HI).
Qed.
Lemma st_clean A i o Q (c : bool) k r z : wpa A i o Q z (after c) -> wpa A i o Q (act* _ := clean_up k in z) (Ex c k 6 r).
Proof.
  intros Hz. apply wpa_act; [done|]. intros s ls Hi [M [G HI]]. destruct (ex_at _ _ _ _ _ _ _ _ _ HI Hi) as (oo&Ho&Hg&Hgood&Hfr). unfold clean_up, with_op. rewrite Ho, Hfr. destruct Hgood as (Hown&Hcd&Hse&Hself&Hcan&Hbe&Hch&Hr&Hpl&Hps).
  cbn [upd_op]. exists (after c). split; [|done].
  pose proof (i_store _ _ _ _ _ HI) as Hst. eapply (inv_mid m M G s ls i _ _ (<[k := PD]> G) _ [] HI Hi); cbn [set_ops sm is_open ops next queue local work closes hist execs]; try done; try (by destruct c).
  - by right.
  - eapply store_priv; [exact Hst|exact Ho|exact Hg|..|by apply un_ex|by split_and!]; [done|done|by right|done|]. split_and!; cbn; try done. intros x Hx%cids_in. cbn in Hx. destruct Hx as [Hx|Hx]; [by apply (Hpl x Hx)|by apply (Hps x Hx)].
  - eapply own_move; [apply (i_own _ _ _ _ _ HI)|done|done|..]; [| |by right|by left]; intros k0 g0; destruct c; cbn; naive_solver.
  - pose proof (total_upd _ _ _ _ _ (Chop (pull oo) (push oo) None (chan oo) (result oo) (stale oo) false (urefs oo) (cancelling oo) (begun oo) (cans oo)) PD Ho Hg) as Ht. clear -Ht. destruct c; cbn in *; lia.
  - by eapply keep_upd.
  - intros H. by left.
  - destruct c; [|done]. cbn. by eapply ex_fine.
  - apply (i_ok _ _ _ _ _ HI).
Qed.
Lemma wp_execute A i o Q (c : bool) k r cont : wpa A i o Q cont (after c) -> wpa A i o Q (execute k cont) (Ex c k 1 r).
Proof. intros H. unfold execute. apply st_read, st_ends, st_clear, st_call_pull, st_call_push, st_clean, H. Qed.
Lemma st_abandoned A i o Q c k z : wpa A i o Q z (Ex c k 1 ABANDONED) -> wpa A i o Q (act* _ := set_result k ABANDONED in z) (Ex c k 0 ABANDONED).
Proof.
  intros Hz. apply wpa_act; [done|]. intros s ls Hi [M [G HI]]. destruct (ex_at _ _ _ _ _ _ _ _ _ HI Hi) as (oo&Ho&Hg&Hgood&Hfr). unfold set_result, with_op. rewrite Ho, Hfr. destruct Hgood as (Hown&Hcd&Hse&Hself&Hcan&Hbe&Hch&Hr&Hpl&Hps). cbn in Hr.
  cbn [upd_op]. exists (Ex c k 1 ABANDONED). split; [|done].
  pose proof (i_store _ _ _ _ _ HI) as Hst. eapply (inv_mid m M G s ls i _ _ (<[k := PE i 1 ABANDONED]> G) _ [] HI Hi); cbn [set_ops sm is_open ops next queue local work closes hist execs]; try done.
  - by right.
  - eapply store_priv; [exact Hst|exact Ho|exact Hg|..|by apply un_ex|by apply un_ex]; [done|done|by left|done|]. split_and!; cbn; try done; [|intros _; apply Hch; lia]. intros Hc. apply Hcd in Hc. congruence.
  - eapply own_ex; [apply (i_own _ _ _ _ _ HI)|done..].
  - pose proof (total_upd _ _ _ _ _ (Chop (pull oo) (push oo) (data oo) (chan oo) ABANDONED (stale oo) (self oo) (urefs oo) (cancelling oo) (begun oo) (cans oo)) (PE i 1 ABANDONED) Ho Hg) as Ht. clear -Ht. cbn in *. unfold cids in *. cbn in *. lia.
  - eapply keep_upd; try done. congruence.
  - intros H. by left.
  - cbn. by eapply ex_fine.
  - apply (i_ok _ _ _ _ _ HI).
Qed.
End proofs.
