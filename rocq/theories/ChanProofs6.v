(** Proofs about the channel: the calls. *)
From Verif Require Import Common Prog Conc ConcLists ChanModel ChanSpec ChanProofs ChanProofs2 ChanProofs3 ChanProofs4 ChanProofs5.
Local Open Scope Z_scope.

Section proofs.
Context (m : mode) (Hm : m <> Wild).
Notation Inv := (Inv m). Notation inv := (inv m).
Notation runs := (runs_ok (channel m) Inv (.= Out) blk shape).
Notation wpa := (wpa Inv blk shape).
Notation one b := (Nat.b2n b).
Ltac cb := cbn [add app set_ops sm is_open ops next queue local work closes hist execs].

(** A call is made, or answers. *)
Definition evq (i : nat) (e : event) : Prop := match e with Called j _ => j = i | Returned _ _ _ => True | _ => False end.
Lemma inv_event M G s ls i l l' G' s' e : inv M G s ls -> ls !! i = Some l -> evq i e ->
  sm s' = sm s -> execs s' = execs s -> is_open s' = is_open s -> next s' = next s -> queue s' = queue s -> local s' = local s -> hist s' = e :: hist s ->
  store (hist s') M G' (ops s') (queue s') (local s') (work s') (next s') -> owners G' (<[i := l']> ls) -> inx l' = inx l -> total (ops s') G' = total (ops s) G -> length (ops s') = length (ops s) ->
  (forall k o', ops s' !! k = Some o' -> exists o, ops s !! k = Some o /\ (cans o' + one (canof k l) = cans o + one (canof k l'))%nat /\ (m = NoReleases -> urefs o' = urefs o) /\ result o' = result o) ->
  (forall k, canof k l' = true -> (k < length (ops s))%nat) -> (closes s' + one (isclose l) = closes s + one (isclose l'))%nat -> closer l' = closer l -> opener l' = opener l ->
  (forall x, one (accof x l') + answered x (hist s') = one (accof x l) + answered x (hist s))%nat ->
  (m = NoReleases -> closes s' <> 0%nat -> forall k o, ops s' !! k = Some o -> cans o = 0%nat) -> (m <> NoReleases -> forall k o, ops s' !! k = Some o -> cans o = 0%nat) ->
  (forall k, cancel_done (hist s') k -> (k < length (ops s))%nat) -> fine s' i l' -> event_ok e (hist s) -> Inv s' (<[i := l']> ls).
Proof.
  intros HI Hi He E1 E2 E3 E4 E5 E6 Hh Hst Hown X1 Htot Hlen Hops Hcank Hcl C3 C4 Hacc K1 K2 Hdone Hf Hok. pose proof HI as HI0.
  destruct HI as [i_store0 i_own0 i_ex0 i_can0 i_cank0 i_cl0 i_clr0 i_opn0 i_ret0 i_open0 i_q0 i_sm0 i_loc0 i_now0 i_alive0 i_cng0 i_calm0 i_calm'0 i_done0 i_fine0 i_ok0].
  assert (open_now (hist s') = open_now (hist s) /\ alive (hist s') = alive (hist s)) as (N1&N2) by (rewrite Hh; by destruct e).
  eapply (inv_gen m M G s ls i l _ M G' s' HI0 Hi Hst Hown); rewrite ?E1, ?E4, ?C3, ?C4; try done.
  - rewrite X1, E2, Htot. clear. lia.
  - intros k o' Ho'. destruct (Hops _ _ Ho') as (o&->&Hc&_). done.
  - by rewrite Hlen.
  - intros x. rewrite (Hacc x). done.
  - split; rewrite ?E1, ?E2, ?E3, ?E5, ?E6, ?N1, ?N2; try done. intros H3. rewrite Hh. right. auto.
  - intros Hmo. split; [by apply K1|]. intros k o' Ho'. destruct (Hops _ _ Ho') as (o&Ho&_&Hu&_). rewrite Hu by done. by eapply i_calm0.
  - intros k Hk. rewrite Hlen. auto.
  - split.
    + exists [e]. split; [done|]. intros j o H%elem_of_list_singleton. subst e. done.
    + intros k o Ho Hr. assert (is_Some (ops s' !! k)) as [o' Ho'] by (apply lookup_lt_is_Some; rewrite Hlen; by eapply lookup_lt_Some). exists o'. split; [done|]. destruct (Hops _ _ Ho') as (o1&Ho1&_&_&H1). congruence.
    + intros k _. by rewrite E5.
    + by rewrite Hlen.
  - rewrite Hh. by split.
Qed.
Lemma ret_same i o r l : (forall k sc, o <> Cancel k sc) -> o <> Close -> l <> Out -> inx l = false -> (forall k, canof k l = false) -> isclose l = false -> opener l = false -> (forall k g, ~ mine i l k g) ->
  (forall s, fine s i l -> (forall x, (one (accof x l) + answered x (hist s) <= 1)%nat) -> (forall x, answered x (Returned i o r :: hist s) = answered x (hist s) + one (accof x l))%nat /\ event_ok (Returned i o r) (hist s)) -> runs i o (Ret r) l.
Proof.
  intros Ho1 Ho2 Hl X1 X2 X3 X4 X5 Hok. apply wpa_ret; [by destruct l|]. intros s ls Hi [M [G HI]]. exists Out. split; [done|].
  assert (returns (channel m) i o r s = add [Returned i o r] s) as -> by (destruct o; try done; exfalso; by eapply Ho1). assert (closer l = false) as X6 by (destruct l as [| | | | | | | | | | | | | |[]| | | | | |]; done).
  destruct (Hok s (i_fine _ _ _ _ _ HI _ _ Hi)) as [Ha Hev].
  { intros x. pose proof (i_ret _ _ _ _ _ HI x) as Hr. pose proof (cnt_upd (accof x) ls i l Out Hi) as Hc. clear -Hr Hc. destruct (x <? next s)%nat; destruct (accof x l); cbn in *; lia. }
  assert (forall k, cancel_done (Returned i o r :: hist s) k -> cancel_done (hist s) k) as Hd. { intros k. apply done_cons. intros i0 sc [= _ E _]. by apply (Ho1 k sc). }
  eapply (inv_event M G s ls i l Out G _ (Returned i o r) HI Hi); cb; try done.
  - apply store_quiet; [done| |apply (i_store _ _ _ _ _ HI)]. intros k oo _ Hk. left. auto.
  - eapply own_same; [apply (i_own _ _ _ _ _ HI)|done|]. intros k g. split; [by intros ?%X5|done].
  - intros k oo Hoo. exists oo. rewrite X2. done.
  - by rewrite X3.
  - intros x. rewrite Ha. cbn. clear. lia.
  - intros Hmo. apply (i_calm _ _ _ _ _ HI Hmo).
  - intros Hmo. apply (i_calm' _ _ _ _ _ HI Hmo).
  - intros k Hk. apply (i_done _ _ _ _ _ HI). auto.
Qed.
Lemma fine_out s i : fine s i Out. Proof. done. Qed.

(** Push and pull *)
Lemma st_begin A i o Q l l' z : l <> Out /\ l <> Cl2 -> inx l = false -> inx l' = true -> (forall k, canof k l' = canof k l) -> isclose l' = isclose l -> closer l' = closer l -> opener l' = opener l -> (forall x, accof x l' = accof x l) -> (forall k g, mine i l k g <-> mine i l' k g) ->
  (forall s, fine s i l -> fine s i l') -> wpa A i o Q (z true) l' ->
  (forall M G s ls, ls !! i = Some l -> inv M G s ls -> sm s <> 2%nat -> exists l', Inv s (<[i := l']> ls) /\ wpa A i o Q (z false) l') -> wpa A i o Q (act* g := exec_begin in z g) l.
Proof.
  intros Hl X1 X2 C2 C3 C4 C5 C6 C7 Hf Hz Hr. apply wpa_act; [split; [exact (proj1 Hl)|by intros ?%(proj2 Hl)]|]. intros s ls Hi [M [G HI]]. unfold exec_begin. destruct (Nat.eqb_spec (sm s) 2) as [Hs|Hs]; [|by eauto]. exists l'. split; [|done]. eapply inv_begin; [exact HI|exact Hi|done..|]. apply Hf.
Qed.
Lemma runs_request i o (b : bool) d alloc : match o with Push d' al sc => b = false /\ d' = d /\ al = alloc /\ sc = true | Pull al sc => b = true /\ al = alloc /\ sc = true | _ => False end -> runs i o (request (section b d alloc true)) Rq.
Proof.
  intros Ho.
  assert (runs i o (Ret Failed) (Rf o)) as Hfail. { apply ret_same; try done; try (by intros k0 g0 F0; exact F0); try (by destruct o). }
  unfold request. apply (st_begin _ _ _ _ Rq In); try done.
  - cbn [negb]. apply st_section; [done|..].
    + intros x k. apply ret_same; try done; try (by intros k0 g0 F0; exact F0); try (by destruct o). intros s Hf Hx. split.
      * intros y. cbn [answered accof]. case_decide; destruct (Nat.eqb_spec x y); try congruence; cbn; lia.
      * specialize (Hx x). cbn [accof] in Hx. rewrite Nat.eqb_refl in Hx. cbn in Hf, Hx. destruct o; try done; split; try done; lia.
    + apply (inv_end m _ _ _ _ _ (Rf o)); try done.
  - intros M G s ls Hi HI Hs. exists (Rf o). split; [|done]. eapply inv_skip; try done. cbn. assert (not_open_since i (hist s)) by (by eapply not_open). destruct o; try done; by right.
Qed.

(** channel_open *)
Lemma runs_open i : runs i Open (open i) Bz.
Proof.
  unfold open. apply wpa_act; [done|]. intros s ls Hi [M [G HI]]. unfold open_begin. destruct (Nat.eqb_spec (sm s) 0) as [Hs|Hs]; cbn [negb].
  2: { exists Bz. split; [by eapply inv_skip|]. apply ret_same; try done; try (by intros k0 g0 F0; exact F0). }
  exists Op1. split.
  { pose proof HI as HI0. destruct HI as [i_store0 i_own0 i_ex0 i_can0 i_cank0 i_cl0 i_clr0 i_opn0 i_ret0 i_open0 i_q0 i_sm0 i_loc0 i_now0 i_alive0 i_cng0 i_calm0 i_calm'0 i_done0 i_fine0 i_ok0].
    eapply (inv_gen m M G s ls i _ Op1 M G _ HI0 Hi); cb; try done.
    - by eapply own_same.
    - intros k o' ->. cbn. lia.
    - by rewrite Hs.
    - by rewrite Hs.
    - split; cb; try done.
      + intros H. rewrite Hs in i_sm0. destruct (i_sm0 H); lia.
      + intros H. specialize (i_loc0 H). lia.
      + rewrite i_now0, Hs. done.
      + rewrite i_alive0, Hs. done.
    - split; cb; try done; [by exists []; split; [done|]; intros j o H; inversion H|]. intros k o Ho Hr. eauto. }
  clear s ls Hi M G HI Hs. apply wpa_act; [done|]. intros s ls Hi [M [G HI]]. pose proof (cnt_pos opener ls i _ Hi eq_refl) as Hp. cbn [set_open]. exists Op2. split.
  { assert (sm s = 1%nat) as Hs. { pose proof (i_opn _ _ _ _ _ HI). destruct (Nat.eqb_spec (sm s) 1); [done|lia]. }
    pose proof HI as HI0. destruct HI as [i_store0 i_own0 i_ex0 i_can0 i_cank0 i_cl0 i_clr0 i_opn0 i_ret0 i_open0 i_q0 i_sm0 i_loc0 i_now0 i_alive0 i_cng0 i_calm0 i_calm'0 i_done0 i_fine0 i_ok0].
    eapply (inv_gen m M G s ls i _ Op2 M G _ HI0 Hi); cb; try done.
    - by eapply own_same.
    - intros k o' ->. cbn. lia.
    - split; cb; try done; [by exists []; split; [done|]; intros j o H; inversion H|]. intros k o Ho Hr. eauto.
    - intros j lj Hj Hne Hc. assert (closer lj = false) by (eapply no_closer; [exact HI0|lia|exact Hj]). congruence.
    - intros j lj Hj Hne Hc. pose proof (other_opener _ _ _ _ _ _ _ _ _ HI0 Hi eq_refl Hj Hne). congruence. }
  clear s ls Hi M G HI Hp. apply wpa_act; [done|]. intros s ls Hi [M [G HI]]. pose proof (cnt_pos opener ls i _ Hi eq_refl) as Hp. cbn [open_end]. exists OpD. split.
  { assert (sm s = 1%nat) as Hs. { pose proof (i_opn _ _ _ _ _ HI). destruct (Nat.eqb_spec (sm s) 1); [done|lia]. }
    pose proof (i_fine _ _ _ _ _ HI _ _ Hi) as Hf. cbn in Hf.
    pose proof HI as HI0. destruct HI as [i_store0 i_own0 i_ex0 i_can0 i_cank0 i_cl0 i_clr0 i_opn0 i_ret0 i_open0 i_q0 i_sm0 i_loc0 i_now0 i_alive0 i_cng0 i_calm0 i_calm'0 i_done0 i_fine0 i_ok0].
    eapply (inv_gen m M G s ls i _ OpD M G _ HI0 Hi); cb; rewrite ?Hs; try done.
    - apply store_quiet; [done| |done]. intros k oo _ Hk. left. eapply done_cons; [|exact Hk]. done.
    - by eapply own_same.
    - intros k o' ->. cbn. lia.
    - split; cb; try done; [by left|]. intros H. specialize (i_loc0 H). lia.
    - intros k Hk. apply i_done0. eapply done_cons; [|exact Hk]. done.
    - split; cb; try done.
      + exists [Opens i]. split; [done|]. intros j o H%elem_of_list_singleton. done.
      + intros k o Ho Hr. eauto.
    - exists [Opens i], (hist s). split_and!; [done| |by left]. intros o H%elem_of_list_singleton. done.
    - split; [|done]. cbn. rewrite i_alive0, Hs. done. }
  apply ret_same; try done; try (by intros k0 g0 F0; exact F0).
Qed.

(** channel_close *)
Lemma runs_closed i : runs i Close (Ret Void) Cl.
Proof.
  apply wpa_ret; [done|]. intros s ls Hi [M [G HI]]. exists Out. split; [done|]. cbn [returns channel]. pose proof (cnt_pos isclose ls i _ Hi eq_refl) as Hp. pose proof (i_cl _ _ _ _ _ HI) as Hcl.
  assert (forall k, cancel_done (Returned i Close Void :: hist s) k -> cancel_done (hist s) k) as Hd. { intros k. apply done_cons. done. }
  eapply (inv_event M G s ls i Cl Out G _ (Returned i Close Void) HI Hi); cb; try done.
  - apply store_quiet; [done| |apply (i_store _ _ _ _ _ HI)]. intros k oo _ Hk. left. auto.
  - by eapply own_same; [apply (i_own _ _ _ _ _ HI)|..].
  - intros k oo Hoo. exists oo. done.
  - cbn. lia.
  - intros Hmo Hc. apply (i_calm _ _ _ _ _ HI Hmo). lia.
  - intros Hmo. apply (i_calm' _ _ _ _ _ HI Hmo).
  - intros k Hk. apply (i_done _ _ _ _ _ HI). auto.
Qed.
Lemma closer_sm M G s ls i l : inv M G s ls -> ls !! i = Some l -> closer l = true -> sm s = 3%nat.
Proof. intros HI Hi Hl. pose proof (cnt_pos closer ls i _ Hi Hl). pose proof (i_clr _ _ _ _ _ HI). destruct (Nat.eqb_spec (sm s) 3); [done|lia]. Qed.
Lemma wp_abandon i : runs i Close abandon Cl1.
Proof.
  set (A := fun (p : prog st res) (l : lst) => p = abandon /\ l = Cl1). apply (wp_loop _ _ _ A); [|by apply wpa_again].
  intros p l [-> ->]. rewrite (frob_eq abandon). cbn [frob abandon]. split; [done|]. intros s ls Hi [M [G HI]]. unfold pop_local. pose proof (closer_sm _ _ _ _ _ _ HI Hi eq_refl) as Hs. pose proof (i_store _ _ _ _ _ HI) as Hst. pose proof (i_fine _ _ _ _ _ HI _ _ Hi) as Hf. cbn in Hf.
  destruct (local s) as [|k lo] eqn:El.
  - exists Cl2. split; [by eapply inv_skip|]. apply wpa_act; [done|]. clear s ls Hi M G HI Hs Hst Hf El. intros s ls Hi [M [G HI]]. unfold close_end. destruct (execs s) as [|n] eqn:En; [|split; [done|lia]].
    pose proof (closer_sm _ _ _ _ _ _ HI Hi eq_refl) as Hs. pose proof (i_fine _ _ _ _ _ HI _ _ Hi) as [Hf1 Hf2]. exists Cl. split.
    2: { apply wpa_weaken. apply runs_closed. }
    pose proof HI as HI0. destruct HI as [i_store0 i_own0 i_ex0 i_can0 i_cank0 i_cl0 i_clr0 i_opn0 i_ret0 i_open0 i_q0 i_sm0 i_loc0 i_now0 i_alive0 i_cng0 i_calm0 i_calm'0 i_done0 i_fine0 i_ok0].
    eapply (inv_gen m M G s ls i _ Cl M G _ HI0 Hi); cb; rewrite ?Hs; try done.
    + apply store_quiet; [done| |done]. intros k oo _ Hk. left. eapply done_cons; [|exact Hk]. done.
    + by eapply own_same.
    + rewrite En. done.
    + intros k o' ->. cbn. lia.
    + split; cb; try done; try (by rewrite En); cbn; rewrite ?i_now0, ?Hs; done.
    + intros k Hk. apply i_done0. eapply done_cons; [|exact Hk]. done.
    + split; cb; try done.
      * exists [Shut]. split; [done|]. intros j o H%elem_of_list_singleton. done.
      * intros k o Ho Hr. eauto.
    + split; [|done]. cbn. intros x Hx. destruct (waiting_inv _ _ _ _ _ _ _ _ _ i_store0 Hx) as (k&o&Hk&_). rewrite i_q0 in Hk by done. by inversion Hk.
  - assert (G !! k = Some PL) as Hg by (apply (s_l _ _ _ _ _ _ _ _ Hst); by left). destruct (op_of _ _ _ _ _ _ _ HI Hg) as (oo&Ho&Hgood). destruct Hgood as (Hown&Hcd&Hsi&Hres&Hch&Hself&Hun&Hwd). unfold with_op. rewrite Ho, (self_alive _ Hself). cbv zeta.
    assert (cans oo = 0%nat) as Hcan. { assert (m = NoReleases \/ m <> NoReleases) as [Hmo|Hmo] by (destruct m; auto); [|by eapply (i_calm' _ _ _ _ _ HI)]. eapply (i_calm _ _ _ _ _ HI Hmo); [|done]. pose proof (cnt_pos isclose ls i _ Hi eq_refl). rewrite (i_cl _ _ _ _ _ HI). lia. }
    exists (Ex true k 0 ABANDONED). split.
    + eapply (inv_mid m M G s ls i _ _ (<[k := PE i 0 ABANDONED]> G) _ [] HI Hi); cb; try done.
      * by rewrite El.
      * by left.
      * eapply store_pop; [exact Hst|exact Ho|exact Hg|done..|]. split_and!; cbn; try done; intros x Hx; apply Hun; [by apply pull_cids|by apply push_cids].
      * eapply own_move; [apply (i_own _ _ _ _ _ HI)|done|done|..]; [| |by left|by right]; intros k0 g0; cbn; naive_solver.
      * pose proof (total_upd _ _ _ _ _ (Chop (pull oo) (push oo) (data oo) (chan oo) (result oo) (Some (head lo)) (self oo) (urefs oo) (cancelling oo) true (cans oo)) (PE i 0 ABANDONED) Ho Hg) as Ht. clear -Ht. cbn in *. unfold cids in *. cbn in *. lia.
      * by eapply keep_upd.
      * intros. by left.
      * cbn. done.
      * apply (i_ok _ _ _ _ _ HI).
    + apply st_abandoned. apply (wp_execute m Hm A i Close _ true k ABANDONED abandon). by apply wpa_again.
Qed.
Lemma runs_close i : runs i Close close Cl.
Proof.
  unfold close. apply wpa_act; [done|]. intros s ls Hi [M [G HI]]. unfold close_begin. destruct (Nat.eqb_spec (sm s) 2) as [Hs|Hs]; cbn [negb].
  2: { exists Cl. split; [by eapply inv_skip|]. apply runs_closed. }
  exists Cl0. split.
  { pose proof HI as HI0. destruct HI as [i_store0 i_own0 i_ex0 i_can0 i_cank0 i_cl0 i_clr0 i_opn0 i_ret0 i_open0 i_q0 i_sm0 i_loc0 i_now0 i_alive0 i_cng0 i_calm0 i_calm'0 i_done0 i_fine0 i_ok0].
    eapply (inv_gen m M G s ls i _ Cl0 M G _ HI0 Hi); cb; rewrite ?Hs; try done.
    - apply store_quiet; [done| |done]. intros k oo _ Hk. left. eapply done_cons; [|exact Hk]. done.
    - by eapply own_same.
    - intros k o' ->. cbn. lia.
    - split; cb; try done.
      + by right.
      + cbn. rewrite i_alive0, Hs. done.
      + intros _. by left.
    - intros k Hk. apply i_done0. eapply done_cons; [|exact Hk]. done.
    - split; cb; try done.
      + exists [Closing]. split; [done|]. intros j o H%elem_of_list_singleton. done.
      + intros k o Ho Hr. eauto. }
  clear s ls Hi M G HI Hs. apply wpa_act; [done|]. intros s ls Hi [M [G HI]]. pose proof (closer_sm _ _ _ _ _ _ HI Hi eq_refl) as Hs. cbn [take_list]. exists Cl1. split; [|apply wp_abandon].
  pose proof HI as HI0. destruct HI as [i_store0 i_own0 i_ex0 i_can0 i_cank0 i_cl0 i_clr0 i_opn0 i_ret0 i_open0 i_q0 i_sm0 i_loc0 i_now0 i_alive0 i_cng0 i_calm0 i_calm'0 i_done0 i_fine0 i_ok0].
  destruct (store_take _ _ _ _ _ _ _ _ i_store0 (i_cng0 Hs) i_ok0) as (G'&Hst'&Hok'&Hlen&HG'). set (h' := map (fun x => Withdrawn x true) (ids (ops s) (queue s)) ++ hist s) in *.
  assert (open_now h' = open_now (hist s) /\ alive h' = alive (hist s) /\ (forall x, answered x h' = answered x (hist s)) /\ (forall k, cancel_done h' k -> cancel_done (hist s) k)) as (N1&N2&N3&N4).
  { unfold h'. clear. induction (ids (ops s) (queue s)) as [|x l IH]; [done|]. destruct IH as (J1&J2&J3&J4). split; [exact J1|]. split; [exact J2|]. split; [exact J3|]. intros k Hk. apply J4. eapply done_cons; [|exact Hk]. done. }
  assert (forall k, k ∈ queue s -> G !! k = Some PQ) as HqG by (intros k Hk; by apply (s_q _ _ _ _ _ _ _ _ i_store0)).
  eapply (inv_gen m M G s ls i _ Cl1 M G' _ HI0 Hi); cb; rewrite ?Hs; try done.
  - eapply own_same; [|exact Hi|done]. intros k g j Hg. rewrite <-(i_own0 k g j Hg), HG'. destruct (decide (k ∈ queue s)) as [Hk|]; [|done]. rewrite (HqG k Hk). split; intros [= <-]; done.
  - assert (total (ops s) G' = total (ops s) G) as ->; [|cbn; lia]. apply total_ext; [done|]. intros k o g g' Ho Hg Hg'. rewrite HG' in Hg'. destruct (decide (k ∈ queue s)) as [Hk|]; [|congruence]. rewrite (HqG k Hk) in Hg. by simplify_eq.
  - intros k o' ->. cbn. lia.
  - intros x. rewrite N3. done.
  - split; cb; rewrite ?N1, ?N2, ?Hs; try done. by right. rewrite i_now0, Hs. done. rewrite i_alive0, Hs. done. intros _. apply elem_of_app. right. auto.
  - intros k Hk. auto.
  - split; cb; try done.
    + eexists. split; [done|]. intros j o H. apply elem_of_list_fmap in H as (x&?&_). done.
    + intros k o Ho Hr. eauto.
    + intros k _ H. by inversion H.
  - intros j lj Hj Hne Hc. pose proof (other_closer _ _ _ _ _ _ _ _ _ HI0 Hi eq_refl Hj Hne). congruence.
  - intros j lj Hj Hne Hc. assert (opener lj = false) by (eapply no_opener; [exact HI0|lia|exact Hj]). congruence.
Qed.
End proofs.
