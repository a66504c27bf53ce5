(** Proofs about the channel: pushes, pulls, opening and closing. *)
From Verif Require Import Common Prog Conc ConcLists ChanModel ChanSpec ChanProofs ChanProofs2 ChanProofs3 ChanProofs4.
Local Open Scope Z_scope.

Section proofs.
Context (m : mode) (Hm : m <> Wild).
Notation Inv := (Inv m). Notation inv := (inv m).
Notation runs := (runs_ok (channel m) Inv (.= Out) blk shape).
Notation wpa := (wpa Inv blk shape).
Ltac cb := cbn [add app set_ops sm is_open ops next queue local work closes hist execs].

(** A thread goes on, and nothing is changed. *)
Lemma inv_skip M G s ls i l l' : inv M G s ls -> ls !! i = Some l -> inx l' = inx l -> (forall k, canof k l' = canof k l) -> isclose l' = isclose l -> closer l' = closer l -> opener l' = opener l -> (forall x, accof x l' = accof x l) ->
  (forall k g, mine i l k g <-> mine i l' k g) -> fine s i l' -> Inv s (<[i := l']> ls).
Proof.
  intros HI Hi C1 C2 C3 C4 C5 C6 C7 Hf. eapply (inv_mid m M G s ls i l l' G s [] HI Hi); try done.
  - by right.
  - apply (i_store _ _ _ _ _ HI).
  - eapply own_same; [apply (i_own _ _ _ _ _ HI)|done..].
  - rewrite C1. lia.
  - apply keep_refl.
  - intros. by left.
  - apply (i_ok _ _ _ _ _ HI).
Qed.
(** sm_exec_begin and sm_exec_end *)
Lemma inv_begin M G s ls i l l' : inv M G s ls -> ls !! i = Some l -> sm s = 2%nat -> inx l = false -> inx l' = true -> (forall k, canof k l' = canof k l) -> isclose l' = isclose l -> closer l' = closer l -> opener l' = opener l -> (forall x, accof x l' = accof x l) ->
  (forall k g, mine i l k g <-> mine i l' k g) -> (fine s i l -> fine s i l') -> Inv (St (sm s) (S (execs s)) (is_open s) (ops s) (next s) (queue s) (local s) (work s) (closes s) (hist s)) (<[i := l']> ls).
Proof.
  intros HI Hi Hs X1 X2 C2 C3 C4 C5 C6 C7 Hf. eapply (inv_mid m M G s ls i l l' G _ [] HI Hi); cb; try done.
  - by right.
  - apply (i_store _ _ _ _ _ HI).
  - eapply own_same; [apply (i_own _ _ _ _ _ HI)|done..].
  - rewrite X1, X2. cbn. lia.
  - apply keep_refl.
  - intros. by right.
  - specialize (Hf (i_fine _ _ _ _ _ HI _ _ Hi)). by destruct l'.
  - apply (i_ok _ _ _ _ _ HI).
Qed.
Lemma inv_end A i o Q l l' z : l <> Out -> inx l = true -> inx l' = false -> (forall k, canof k l' = canof k l) -> isclose l' = isclose l -> closer l' = closer l -> opener l' = opener l -> (forall x, accof x l' = accof x l) ->
  (forall k g, mine i l k g <-> mine i l' k g) -> (forall s, fine s i l -> fine s i l') -> wpa A i o Q z l' -> wpa A i o Q (act* _ := exec_end in z) l.
Proof.
  intros Hl X1 X2 C2 C3 C4 C5 C6 C7 Hf Hz. apply wpa_act; [by destruct l|]. intros s ls Hi [M [G HI]]. pose proof (i_ex _ _ _ _ _ HI) as Hex. pose proof (cnt_pos inx ls i _ Hi X1) as Hp. unfold exec_end. destruct (execs s) as [|n] eqn:En; [clear -Hex Hp; lia|].
  exists l'. split; [|done]. eapply (inv_mid m M G s ls i l l' G _ [] HI Hi); cb; try done.
  - by right.
  - apply (i_store _ _ _ _ _ HI).
  - eapply own_same; [apply (i_own _ _ _ _ _ HI)|done..].
  - rewrite X1, X2, En. cbn. lia.
  - apply keep_refl.
  - intros. left. lia.
  - specialize (Hf s (i_fine _ _ _ _ _ HI _ _ Hi)). by destruct l'.
  - apply (i_ok _ _ _ _ _ HI).
Qed.
Lemma not_open M G s ls i : inv M G s ls -> sm s <> 2%nat -> not_open_since i (hist s).
Proof. intros HI Hs. exists [], (hist s). split_and!; [done|intros o H; by inversion H|]. rewrite (i_now _ _ _ _ _ HI). by destruct (Nat.eqb_spec (sm s) 2). Qed.

(** Acceptance *)
Lemma inv_accept M G s ls i o M' G' s' k b d : inv M G s ls -> ls !! i = Some In -> is_open s = true ->
  sm s' = sm s -> execs s' = execs s -> is_open s' = is_open s -> next s' = S (next s) -> local s' = local s -> closes s' = closes s -> hist s' = accepts b (next s) k d :: hist s ->
  store (hist s') M' G' (ops s') (queue s') (local s') (work s') (next s') -> owners G' ls -> total (ops s') G' = S (total (ops s) G) ->
  (length (ops s) <= length (ops s'))%nat -> (forall k, (k < length (ops s))%nat -> k ∈ queue s' -> k ∈ queue s) ->
  (forall j o', ops s' !! j = Some o' -> match ops s !! j with Some o => cans o' = cans o /\ (urefs o <= urefs o')%nat /\ result o' = result o | None => cans o' = 0%nat /\ urefs o' = 1%nat end) ->
  match o with Push d' _ _ => b = false /\ d' = d | Pull _ _ => b = true | _ => False end -> Inv s' (<[i := Ac o (next s) k]> ls).
Proof.
  intros HI Hi Hop E1 E2 E3 E4 E5 E6 Hh Hst Hown Htot Hlen Hq Hops Ho. pose proof HI as HI0. destruct HI as [i_store0 i_own0 i_ex0 i_can0 i_cank0 i_cl0 i_clr0 i_opn0 i_ret0 i_open0 i_q0 i_sm0 i_loc0 i_now0 i_alive0 i_cng0 i_calm0 i_calm'0 i_done0 i_fine0 i_ok0]. pose proof (cnt_pos inx ls i _ Hi eq_refl) as Hp.
  assert (sm s = 2%nat \/ sm s = 3%nat) as Hsm by (apply i_sm0; clear -i_ex0 Hp; lia).
  assert (open_now (hist s') = open_now (hist s) /\ alive (hist s') = alive (hist s) /\ forall x, answered x (hist s') = answered x (hist s)) as (N1&N2&N3) by (rewrite Hh; by destruct b).
  eapply (inv_gen m M G s ls i In _ M' G' s' HI0 Hi Hst); rewrite ?E1, ?E4, ?E6; try done.
  - eapply own_same; [exact Hown|exact Hi|done].
  - rewrite Htot, E2. cbn. clear. lia.
  - intros j o' Ho'. specialize (Hops _ _ Ho'). destruct (ops s !! j); [|by destruct Hops as [-> _]]. destruct Hops as (->&_). cbn. done.
  - intros x. rewrite N3. cbn [accof]. clear. destruct (Nat.eqb_spec (next s) x), (Nat.ltb_spec x (next s)), (Nat.ltb_spec x (S (next s))); cbn; lia.
  - split; rewrite ?E1, ?E2, ?E3, ?E5, ?N1, ?N2; try done; [rewrite Hop; done|]. intros H3. rewrite Hh. right. auto.
  - intros Hmo. destruct (i_calm0 Hmo) as [A1 A2]. split; [intros Hc j o' Ho'|intros j o' Ho']; specialize (Hops _ _ Ho'); destruct (ops s !! j) as [oj|] eqn:Ej.
    + destruct Hops as (->&_). eauto.
    + apply Hops.
    + destruct Hops as (_&Hu&_). specialize (A2 _ _ Ej). lia.
    + destruct Hops as (_&->). done.
  - intros Hmo j o' Ho'. specialize (Hops _ _ Ho'). destruct (ops s !! j) as [oj|] eqn:Ej; [destruct Hops as (->&_); eauto|apply Hops].
  - intros j Hj. rewrite Hh in Hj. apply accepts_done in Hj. apply i_done0 in Hj. lia.
  - split; [|..|done|done].
    + exists [accepts b (next s) k d]. split; [done|]. intros j o' H%elem_of_list_singleton. by destruct b.
    + intros j oj Hj Hr. assert (is_Some (ops s' !! j)) as [o' Ho'] by (apply lookup_lt_is_Some; eapply Nat.lt_le_trans; [by eapply lookup_lt_Some|done]). exists o'. split; [done|]. specialize (Hops _ _ Ho'). rewrite Hj in Hops. destruct Hops as (_&_&->). done.
  - cbn. rewrite Hh. destruct o; try done; [destruct Ho as [-> ->]|subst b]; by left.
  - rewrite Hh. split; [|done]. assert (alive (hist s) = true) as Ha by (rewrite i_alive0; destruct Hsm as [-> | ->]; done). assert (forall k', ~ handle (hist s) (next s) k') as Hf by (intros k' Hk'; apply (s_hlt _ _ _ _ _ _ _ _ i_store0) in Hk'; lia). by destruct b.
Qed.
Lemma head_side M G s ls k q o : inv M G s ls -> queue s = k :: q -> ops s !! k = Some o -> freed o = false /\ cans o = cans o /\ single o /\ G !! k = Some PQ /\
  match pull o with Some _ => push o = None /\ omap (qpush (ops s)) (queue s) = [] | None => is_Some (push o) /\ omap (qpull (ops s)) (queue s) = [] end.
Proof.
  intros HI Hq Ho. pose proof (i_store _ _ _ _ _ HI) as Hst. assert (G !! k = Some PQ) as Hg by (apply (s_q _ _ _ _ _ _ _ _ Hst); rewrite Hq; by left). destruct (s_good _ _ _ _ _ _ _ _ Hst _ _ _ Ho Hg) as (_&_&Hsi&_&_&Hself&_).
  split_and!; [by apply self_alive|done..|]. pose proof (s_kind _ _ _ _ _ _ _ _ Hst) as Hk. rewrite Hq in *. cbn [omap list_omap] in *. destruct Hsi as [(x&E1&E2&E3)|(x&d&E1&E2&E3)]; rewrite E1, E2.
  - split; [done|]. destruct Hk as [Hk|Hk]; [done|]. unfold qpull in Hk. rewrite Ho, E1 in Hk. done.
  - split; [done|]. destruct Hk as [Hk|Hk]; [|done]. unfold qpush in Hk. rewrite Ho, E2, E3 in Hk. done.
Qed.
Definition section (b : bool) (d : Z) (alloc sched : bool) : M st res := if b then locked_pull alloc sched else locked_push d alloc sched.
Lemma st_section A i o Q (b : bool) d alloc z : match o with Push d' al sc => b = false /\ d' = d /\ al = alloc /\ sc = true | Pull al sc => b = true /\ al = alloc /\ sc = true | _ => False end ->
  (forall x k, wpa A i o Q (z (Accepted_as x k)) (Ac o x k)) -> wpa A i o Q (z Failed) (InF o) -> wpa A i o Q (act* r := section b d alloc true in z r) In.
Proof.
  intros Ho Hacc Hfail. apply wpa_act; [done|]. intros s ls Hi [M [G HI]]. pose proof (i_store _ _ _ _ _ HI) as Hst. set (e := fun x k => accepts b x k d).
  assert (match o with Push d' _ _ => b = false /\ d' = d | Pull _ _ => b = true | _ => False end) as Ho' by (destruct o; try done; tauto).
  assert (is_open s = true -> (if b then omap (qpush (ops s)) (queue s) = [] else omap (qpull (ops s)) (queue s) = []) ->
    match enqueue alloc (if b then Some (next s) else None) (if b then None else Some (next s)) (if b then None else Some d) e s with Done (r, s') => exists l', Inv s' (<[i := l']> ls) /\ wpa A i o Q (z r) l' | Undef => False | NoFuel => blk i In s end) as Henq.
  { intros Hop Hk. unfold enqueue. destruct alloc.
    - exists (Ac o (next s) (length (ops s))). split; [|done]. change (Chop _ _ _ true OK None true 1 false false 0) with (new_op b (next s) d). pose proof (store_enq _ _ _ _ _ _ _ _ b d Hst (fun x => called_lt m _ _ _ _ _ HI) (i_done _ _ _ _ _ HI) Hk) as Hs'.
      eapply inv_accept; [exact HI|exact Hi|exact Hop|..]; cb; try done.
      + apply own_grow; [apply (i_own _ _ _ _ _ HI)|done].
      + rewrite total_app by (apply (s_len _ _ _ _ _ _ _ _ Hst)). destruct b; cbn; lia.
      + rewrite app_length. lia.
      + intros k Hk'. rewrite elem_of_app, elem_of_list_singleton. intros [?|?]; [done|lia].
      + intros j o' Hj. apply lookup_app_Some in Hj as [Hj|[Hj Hj']]; [by rewrite Hj|]. assert (ops s !! j = None) as -> by (by apply lookup_ge_None). destruct (j - length (ops s))%nat as [|y]; [|by destruct y]. by injection Hj' as <-.
    - exists (InF o). split; [|done]. eapply inv_skip; try done. cbn. destruct o; try done; left; tauto. }
  assert (forall k q oo, is_open s = true -> queue s = k :: q -> ops s !! k = Some oo -> freed oo = false -> (if b then pull oo = None else push oo = None) ->
    match dequeue true (if b then Some (next s) else None) (if b then None else Some (next s)) (if b then None else Some d) e s with Done (r, s') => exists l', Inv s' (<[i := l']> ls) /\ wpa A i o Q (z r) l' | Undef => False | NoFuel => blk i In s end) as Hdeq.
  { intros k q oo Hop Hq Hoo Hfr Hside. unfold dequeue. rewrite Hq, Hoo, Hfr. cbv zeta. destruct (head_side _ _ _ _ _ _ _ HI Hq Hoo) as (_&_&Hsi&Hg&_).
    pose proof Hst as Hst'. rewrite Hq in Hst'. destruct (store_deq _ _ _ _ _ _ _ _ b d k oo Hst' (fun x => called_lt m _ _ _ _ _ HI) Hoo Hside) as [p Hs'].
    set (o' := Chop _ _ _ (chan oo) (result oo) (Some (head q)) (self oo) (S (urefs oo)) (cancelling oo) (begun oo) (cans oo)). assert (o' = joined b (next s) d oo (Some (head q))) as -> by (unfold o', joined; by destruct b).
    exists (Ac o (next s) k). split; [|done]. eapply inv_accept; [exact HI|exact Hi|exact Hop|..]; cb; try done.
    - eapply own_set; [apply (i_own _ _ _ _ _ HI)|done..].
    - pose proof (total_upd _ _ _ _ _ (joined b (next s) d oo (Some (head q))) PW Hoo Hg) as Ht. destruct (single_cids _ Hsi) as [x Hx]. unfold owes in Ht. rewrite Hx in Ht. assert (length (cids (joined b (next s) d oo (Some (head q)))) = 2%nat) as El; [|rewrite El in Ht; cbn in Ht; clear -Ht; lia].
      unfold cids, joined in *. cbn. destruct b; cbn; rewrite Hside in Hx; cbn in Hx; [by rewrite Hx|]. rewrite app_nil_r in Hx. by rewrite Hx.
    - by rewrite insert_length.
    - intros j _ Hj. rewrite Hq. by right.
    - intros j o'' Hj. apply lookup_upd in Hj as [(->&->&_)|[Hne Hj]]; [rewrite Hoo|by rewrite Hj]. cbn. split_and!; [done|lia|done]. }
  assert (is_open s = false -> exists l', Inv s (<[i := l']> ls) /\ wpa A i o Q (z Failed) l') as Hno.
  { intros Hop. exists (InF o). split; [|done]. eapply inv_skip; try done. cbn. assert (not_open_since i (hist s)) as Hn. { eapply not_open; [done|]. intros Hs. pose proof (i_open _ _ _ _ _ HI Hs). congruence. } destruct o; try done; by right. }
  unfold section. destruct b; unfold locked_pull, locked_push; cbv zeta; (destruct (is_open s) eqn:Hop; cbn [negb]; [|by apply Hno]); (destruct (queue s) as [|k q] eqn:Hq; [by apply Henq|]).
  all: assert (is_Some (ops s !! k)) as [oo Hoo] by (apply lookup_lt_is_Some; rewrite <-(s_len _ _ _ _ _ _ _ _ Hst); apply (lookup_lt_Some _ _ PQ), (s_q _ _ _ _ _ _ _ _ Hst); left).
  all: rewrite Hoo; destruct (head_side _ _ _ _ _ _ _ HI Hq Hoo) as (Hfr&_&Hsi&Hg&Hside); rewrite Hfr.
  - destruct (pull oo) eqn:Ep; [destruct Hside as [? Hk]; rewrite Hq in Hk; by apply Henq|]. by eapply Hdeq.
  - destruct (push oo) eqn:Eps.
    + destruct (pull oo); [by destruct Hside|]. destruct Hside as [_ Hk]. rewrite Hq in Hk. by apply Henq.
    + by eapply Hdeq.
Qed.
End proofs.
