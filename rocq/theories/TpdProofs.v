(** Proofs about TP_WORKER_THREAD with destroy. *)
From Verif Require Import Common Prog Conc ConcLists Life LifeProofs TpwModel TpwSpec TpwProofs TpdModel.

Definition out (l : pc) : bool := match l with Out => true | _ => false end.
Definition final (l : pc) : Prop := l = XRet.
Definition quiet (s : tpw) : Prop := sm s = Closed.
Notation InvD i := (InvD Inv out isK final quiet i).
Lemma idle_out l : l = Out <-> out l = true.
Proof. by destruct l. Qed.
Lemma shape_own o p l : shape o p l -> out l = false /\ isK l = own o.
Proof. intros (_&Hk&Ho). split; [by destruct l|]. destruct (isK l) eqn:E; [by rewrite (proj1 Hk eq_refl)|]. destruct o; cbn; try done. by discriminate (proj2 Hk eq_refl). Qed.
Lemma closed_all s ls : Inv s ls -> quiet s -> pend s = 0 /\ cnt isK ls = 0.
Proof. intros HI Hq. pose proof (i_num _ _ HI) as (_&Hb&_&_&Hm&Hp&_). unfold quiet in Hq. rewrite Hq in Hm. destruct Hm as (Hm&_). destruct (Hp Hm). lia. Qed.
Lemma closed_none s ls j l : Inv s ls -> quiet s -> ls !! j = Some l -> isK l = false.
Proof. intros HI Hq Hj. destruct (isK l) eqn:E; [|done]. pose proof (cnt_pos isK ls j _ Hj E). destruct (closed_all _ _ HI Hq). lia. Qed.
Lemma closed_call i o s ls : Inv s ls -> quiet s -> own o = true -> calls worker i o s = None.
Proof. intros HI Hq Ho. destruct o; try done. destruct (closed_all _ _ HI Hq) as [E _]. cbn. rewrite E. by destruct (pool s). Qed.

(** destroy, up to the freeing *)
Section moves.
Context (s : tpw) (ls : list pc) (i : nat) (HD : InvD i s ls).
(** nobody else opens or closes *)
Lemma alone l : ls !! i = Some l -> hold l = false -> sm s = Closed \/ sm s = Opened.
Proof.
  intros Hi Hl. destruct HD as (HI&Hot&_). pose proof (i_num _ _ HI) as (_&_&_&Hh&_). destruct (decide (cnt hold ls = 0)) as [E|E]; [destruct (sm s); auto; lia|].
  destruct (cnt_ex hold ls) as (j&lj&Hj&Hlj); [lia|]. destruct (decide (j = i)) as [->|Hne]; [congruence|]. destruct (Hot _ _ Hj Hne) as [H|H]; by destruct lj.
Qed.
Lemma step_in s' l' : Inv s' (<[i := l']> ls) -> (l' = XRet -> sm s' = Closed) -> InvD i s' (<[i := l']> ls).
Proof.
  intros HI' Hq. destruct HD as (HI&Hot&_). split_and!; [done|..].
  - intros j l Hj Hne. rewrite list_lookup_insert_ne in Hj by done. eauto.
  - intros l Hl Hf. destruct (decide (i < length ls)) as [Hlt|Hge]; [|by rewrite list_insert_ge in Hl by lia; apply lookup_lt_Some in Hl]. rewrite list_lookup_insert in Hl by done. injection Hl as <-. by apply Hq.
Qed.
End moves.
Ltac d_step lem := apply wpa_act; [shp|]; intros s0 ls0 Hi0 HD0; pose proof (lem _ _ _ (proj1 HD0) Hi0) as Hact.
Lemma destroys i : wp (InvD i) blk shape i (Close true) (fun r l => final l /\ back worker Inv (.= Out) i (Close true) r l) (before_free i) X0.
Proof.
  assert (forall r, r = Void -> wp (InvD i) blk shape i (Close true) (fun r l => final l /\ back worker Inv (.= Out) i (Close true) r l) (Ret r) XRet) as Hfin.
  { intros r ->. apply wpa_ret; [shp|]. split; [done|]. apply (ret_ok i (Close true) Void XRet). done. }
  unfold before_free, tp_worker_thread_close_internal. d_step a_close_begin. destruct (sm_close_begin i s0) as [[[] s1]| |] eqn:E; [|..|done|done].
  2: { exists XRet. split; [|by apply Hfin]. apply (step_in s0); [done..|]. intros _. destruct (alone s0 ls0 i HD0 _ Hi0 eq_refl) as [Hs|Hs]; unfold sm_close_begin in E; rewrite Hs in E; [by injection E as <-|done]. }
  exists X1. split; [by eapply (step_in s0)|]. clear -Hfin. d_step a_drain. destruct (sm_drain s0) as [[[] s1]| |]; [|done..]. exists X2. split; [by eapply (step_in s0)|]. clear -Hfin.
  d_step a_drop_item. destruct (drop_work_item s0) as [[[] s1]| |]; [|done..]. exists X3. split; [by eapply (step_in s0)|]. clear -Hfin.
  d_step a_drop_pool. destruct (drop_threadpool s0) as [[[] s1]| |]; [|done..]. exists X4. split; [by eapply (step_in s0)|]. clear -Hfin.
  d_step a_close_end. destruct (sm_close_end s0) as [[[] s1]| |] eqn:E; [|done..]. exists XRet. split; [|by apply Hfin]. apply (step_in s0); [done..|]. intros _. unfold sm_close_end in E. destruct (sm s0); try done. by injection E as <-.
Qed.
Lemma calls_destroy i s s' ls l : ls !! i = Some l -> out l = true -> Inv s ls -> (forall j l, ls !! j = Some l -> out l = true \/ isK l = true) -> calls worker i (Close true) s = Some s' ->
  exists l', InvD i s' (<[i := l']> ls) /\ wp (InvD i) blk shape i (Close true) (fun r l => final l /\ back worker Inv (.= Out) i (Close true) r l) (before_free i) l'.
Proof.
  intros Hi Ho%idle_out HI Hot Hc. subst l. cbn in Hc. injection Hc as <-. exists X0. split; [|apply destroys]. split_and!.
  - apply call_move; try done. intros _. cbn. by left.
  - intros j l Hj Hne. rewrite list_lookup_insert_ne in Hj by done. eauto.
  - intros l Hl Hf. rewrite list_lookup_insert in Hl by (by eapply lookup_lt_Some). injection Hl as <-. done.
Qed.
Section reached.
Context (e f m1 m2 : bool) (s0 : tpw) (n : nat) (c : lived tpw * list (thread (lived tpw) (lop op) res)).
Context (Hcr : tp_worker_thread_create e f m1 m2 = Some s0) (Hr : reachable worker_life (created s0) n c).
Lemma qenv s s' : env worker s s' -> quiet s -> quiet s'.
Proof. by intros (w&_&->). Qed.
Lemma qret i r s : quiet s -> quiet (returns worker i (Close true) r s).
Proof. done. Qed.
Ltac life lem := eapply (lem _ _ _ _ worker own (Close true) before_free Inv blk shape out isK final quiet (.= Out) idle_out call_ok env_ok shape_own closed_none closed_call qenv qret eq_refl calls_destroy
  s0 n Out eq_refl (init_ok _ _ _ _ _ _ Hcr) c Hr).
Lemma d_no_crash i : ~ crashed c i.
Proof. life @L_no_crash. Qed.
Lemma d_history later ev before : hist (base c.1) = later ++ ev :: before -> event_ok ev before.
Proof. intros Hh. assert (exists ls, Inv (base c.1) ls) as [ls HI] by life @L_inv. eapply all_ok_at. rewrite <-Hh. apply HI. Qed.
Lemma d_freed i r : c.2 !! i = Some (Running Destroy (Ret r)) -> phase c.1 = Gone.
Proof. intros Hi. life @L_freed. exact Hi. Qed.
Lemma d_gone : phase c.1 = Gone -> is_open (hist (base c.1)) = false /\ active (hist (base c.1)) = [] /\ pend (base c.1) = 0 /\ pool (base c.1) = false /\ item (base c.1) = false /\
  forall j o p, c.2 !! j = Some (Running o p) -> o = Destroy.
Proof.
  intros Hg. assert (quiet (base c.1) /\ forall j o p, c.2 !! j = Some (Running o p) -> o = Destroy) as [Hq Hd] by (life @L_gone; exact Hg).
  assert (exists ls, Inv (base c.1) ls) as [ls HI] by life @L_inv. destruct (closed_all _ _ HI Hq) as [Hp Hk]. pose proof (i_num _ _ HI) as (_&_&_&_&Hm&_). unfold quiet in Hq. rewrite Hq in Hm. destruct Hm as (Hm1&Hm2&_).
  split_and!; try done.
  - destruct (is_open (hist (base c.1))) eqn:E; [|done]. apply (i_open _ _ HI) in E. congruence.
  - destruct (active (hist (base c.1))) as [|j a] eqn:E; [done|]. assert (ls !! j = Some K1) as Hj by (apply (i_act _ _ HI); rewrite E; by left). pose proof (cnt_pos isK ls j _ Hj eq_refl). lia.
Qed.
Lemma d_no_deadlock i : failed (hist (base c.1)) = false -> blocked c i -> 0 < pend (base c.1) \/ exists j o p, c.2 !! j = Some (Running o p) /\ ~ blocked c j.
Proof.
  intros Hf Hb. assert (phase c.1 = Gone \/ phase c.1 <> Gone) as [Hg|Hg] by (destruct (phase c.1); auto).
  { exfalso. revert Hb. life @L_gone_runs. exact Hg. }
  destruct (same_reach worker own (Close true) before_free (fun _ => eq_refl) _ _ _ Hr) as (ts&Hts&Hsame).
  rewrite (same_blocked _ _ ts) in Hb by done. destruct (no_deadlock e f m1 m2 s0 n _ Hcr Hts i Hf Hb) as [Hp|(j&o&p&Hj&Hnb)]; [by left|right].
  destruct (same_running _ _ _ _ _ _ Hsame Hj) as (o'&p'&Hj'&_). exists j, o', p'. split; [done|]. by rewrite (same_blocked _ _ ts) by done.
Qed.
End reached.
