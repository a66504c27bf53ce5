(** Proofs about src/critical_section.c. *)
From Verif Require Import Common Prog Conc CritModel.
Local Open Scope Z_scope.

Inductive pc := Out | Try | Chk | Slp | Got | Lv | Wk | Bk.
Global Instance pc_eq_dec : EqDecision pc.
Proof. solve_decision. Defined.
Notation owner l := (l = Got \/ l = Lv).
(** A thread that will look at the word again, or wake another. *)
Definition lively (s : cs) (j : nat) (l : pc) : Prop := l = Try \/ l = Wk \/ l = Chk \/ (l = Slp /\ j ∉ waiting s).
Definition answer_ok (a : nat * op * Z) : Prop := a.2 = (if a.1.2.2 then 0 else 1).

Record Inv (s : cs) (ls : list pc) : Prop := {
  inv_word : word s = 0 \/ word s = 1;
  inv_own : Z.of_nat (length (inside s) + num (fun l => owner l) ls) = word s;
  inv_nodup : NoDup (waiting s);
  inv_wait : forall j, j ∈ waiting s -> ls !! j = Some Slp;
  inv_live : word s = 0 -> waiting s <> [] -> exists j l, ls !! j = Some l /\ lively s j l;
  inv_ans : Forall answer_ok (answers s);
}.
Definition blk (i : nat) (l : pc) (s : cs) : Prop := l = Slp /\ i ∈ waiting s.
Definition shape (o : op) (p : prog cs Z) (l : pc) : Prop :=
  match l with
  | Wk => exists k, o = (false, true) /\ p = Act wake_by_address_single k
  | Try | Chk | Slp => o = (true, true) /\ exists X (m : M cs X) k, p = Act m k
  | _ => True
  end.
Notation runs := (runs_ok crit Inv (.= Out) blk shape).

Lemma num_move (ls : list pc) i l l' : ls !! i = Some l -> ~ owner l -> ~ owner l' -> num (fun l => owner l) (<[i := l']> ls) = num (fun l => owner l) ls.
Proof. intros Hi H1 H2. pose proof (num_insert (fun l => owner l) ls i l l' Hi) as H. rewrite !decide_False in H by done. lia. Qed.
Lemma num_gain (ls : list pc) i l l' : ls !! i = Some l -> ~ owner l -> owner l' -> num (fun l => owner l) (<[i := l']> ls) = S (num (fun l => owner l) ls).
Proof. intros Hi H1 H2. pose proof (num_insert (fun l => owner l) ls i l l' Hi) as H. rewrite decide_False in H by done. rewrite decide_True in H by done. lia. Qed.
Lemma num_lose (ls : list pc) i l l' : ls !! i = Some l -> owner l -> ~ owner l' -> S (num (fun l => owner l) (<[i := l']> ls)) = num (fun l => owner l) ls.
Proof. intros Hi H1 H2. pose proof (num_insert (fun l => owner l) ls i l l' Hi) as H. rewrite decide_True in H by done. rewrite decide_False in H by done. lia. Qed.

Lemma wait_other (ls : list pc) i l' (w : list nat) : (forall j, j ∈ w -> ls !! j = Some Slp) -> ls !! i <> Some Slp -> forall j, j ∈ w -> <[i := l']> ls !! j = Some Slp.
Proof. intros Hw Hi j Hj. destruct (decide (i = j)) as [<-|Hne]; [specialize (Hw i Hj); done|]. rewrite list_lookup_insert_ne by done. auto. Qed.
Lemma live_self (ls : list pc) s i l l' : ls !! i = Some l -> lively s i l' -> exists j l, <[i := l']> ls !! j = Some l /\ lively s j l.
Proof. intros Hi Hl. exists i, l'. split; [|done]. apply list_lookup_insert. by eapply lookup_lt_Some. Qed.
Lemma live_other (ls : list pc) s i l l' : ls !! i = Some l -> ~ lively s i l -> (exists j l, ls !! j = Some l /\ lively s j l) -> exists j l, <[i := l']> ls !! j = Some l /\ lively s j l.
Proof. intros Hi Hn (j&lj&Hj&Hlj). exists j, lj. split; [|done]. rewrite list_lookup_insert_ne; [done|]. intros <-. simplify_eq. done. Qed.

Lemma enter_ok i : runs i (true, true) (enter_loop i) Try.
Proof.
  eapply wp_loop with (A := fun p l => p = enter_loop i /\ l = Try); [|by apply wpa_again].
  intros p l [-> ->]. rewrite (frob_eq (enter_loop i)). cbn [frob enter_loop]. split; [cbn; by eauto 8|]. intros s ls Hl HI. destruct HI as [Hw Ho Hn Hwt Hlv Ha].
  unfold interlocked_compare_exchange. destruct (Z.eqb_spec (word s) 0) as [E|E].
  - exists Got. split.
    + split; cbn [word waiting inside set_word answers] in *; auto.
      * rewrite (num_gain _ _ _ _ Hl) by naive_solver. lia.
      * apply wait_other; [done|]. congruence.
      * intros. done.
    + apply wpa_ret; [done|]. clear s ls Hl Hw Ho Hn Hwt Hlv Ha E. intros s ls Hl [Hw Ho Hn Hwt Hlv Ha]. exists Out. split; [done|]. cbn.
      split; cbn [word waiting inside set_inside answers] in *; auto.
      * pose proof (num_lose _ _ _ Out Hl) as Hx. cbn [length]. rewrite <-Hx in Ho by naive_solver. lia.
      * apply wait_other; [done|]. congruence.
      * intros H0. pose proof (num_pos (fun l => owner l) ls i _ Hl ltac:(naive_solver)). lia.
      * apply Forall_cons. done.
  - exists Chk. split.
    + split; auto.
      * by rewrite (num_move _ _ _ _ Hl) by naive_solver.
      * apply wait_other; [done|]. congruence.
      * intros. done.
    + assert (word s = 1) as -> by lia. clear s ls Hl Hw Ho Hn Hwt Hlv Ha E. apply wpa_act; [cbn; by eauto 8|]. intros s ls Hl [Hw Ho Hn Hwt Hlv Ha].
      assert (i ∉ waiting s) as Hni. { intros Hi. specialize (Hwt _ Hi). congruence. }
      exists Slp. split.
      * destruct (Z.eqb_spec (word s) 1) as [E|E].
        -- split; cbn [word waiting inside set_waiting answers]; auto.
           ++ by rewrite (num_move _ _ _ _ Hl) by naive_solver.
           ++ apply NoDup_app. split_and!; [done| |apply NoDup_singleton]. intros x Hx ->%elem_of_list_singleton. done.
           ++ intros j [Hj| ->%elem_of_list_singleton]%elem_of_app; [|apply list_lookup_insert; by eapply lookup_lt_Some]. revert j Hj. apply wait_other; [done|]. congruence.
           ++ lia.
        -- split; auto.
           ++ by rewrite (num_move _ _ _ _ Hl) by naive_solver.
           ++ apply wait_other; [done|]. congruence.
           ++ intros. eapply live_self; [done|]. unfold lively. auto.
      * clear s ls Hl Hw Ho Hn Hwt Hlv Ha Hni. apply wpa_act; [cbn; by eauto 8|]. intros s ls Hl [Hw Ho Hn Hwt Hlv Ha]. unfold wait_end. destruct (decide (i ∈ waiting s)) as [Hi|Hi]; [done|].
        exists Try. split; [|apply wpa_again; split; [exact (frob_eq (enter_loop i))|done]]. split; auto.
        -- by rewrite (num_move _ _ _ _ Hl) by naive_solver.
        -- intros j Hj. rewrite list_lookup_insert_ne by (intros ->; done). auto.
        -- intros. eapply live_self; [done|]. unfold lively. auto.
Qed.
Lemma back_ok i o r l : answer_ok (i, o, r) -> l = Bk -> o.1 && (r =? 0) = false -> runs i o (Ret r) l.
Proof.
  intros Hao -> Ho'. apply wpa_ret; [done|]. intros s ls Hl [Hw Ho Hn Hwt Hlv Ha]. exists Out. split; [done|]. cbn. rewrite Ho'. split; cbn [word waiting inside answers]; auto.
  - by rewrite (num_move _ _ _ _ Hl) by naive_solver.
  - apply wait_other; [done|]. congruence.
  - intros H1 H2. eapply (live_other ls s); [done| |auto]. unfold lively. naive_solver.
Qed.
Lemma leave_ok i : runs i (false, true) (critical_section_leave true) Lv.
Proof.
  apply wpa_act; [done|]. intros s ls Hl [Hw Ho Hn Hwt Hlv Ha]. exists Wk. split.
  - split; cbn [word waiting inside set_word answers]; auto.
    + pose proof (num_lose _ _ _ Wk Hl) as Hx. rewrite <-Hx in Ho by naive_solver. lia.
    + apply wait_other; [done|]. congruence.
    + intros. eapply live_self; [done|]. unfold lively. auto.
  - clear s ls Hl Hw Ho Hn Hwt Hlv Ha. apply wpa_act; [cbn; eauto|]. intros s ls Hl [Hw Ho Hn Hwt Hlv Ha]. exists Bk. split; [|by apply back_ok].
    unfold set_waiting. destruct (waiting s) as [|h w] eqn:E; cbn [tail] in *; split; cbn [word waiting inside answers]; auto.
    + by rewrite (num_move _ _ _ _ Hl) by naive_solver.
    + apply wait_other; [done|]. congruence.
    + done.
    + by rewrite (num_move _ _ _ _ Hl) by naive_solver.
    + by apply NoDup_cons in Hn as [_ ?].
    + intros j Hj. revert j Hj. apply wait_other; [|congruence]. intros j Hj. apply Hwt. by right.
    + intros _ _. exists h, Slp. assert (ls !! h = Some Slp) as Hh by (apply Hwt; by left). split.
      * rewrite list_lookup_insert_ne; [done|]. intros ->. congruence.
      * right; right; right. split; [done|]. cbn. by apply NoDup_cons in Hn as [? _].
Qed.
Lemma own_le s ls : Inv s ls -> (length (inside s) <= 1)%nat.
Proof. intros [Hw Ho _ _ _ _]. lia. Qed.
Lemma call_ok i o s s' ls l : ls !! i = Some l -> l = Out -> Inv s ls -> calls crit i o s = Some s' -> exists l', Inv s' (<[i := l']> ls) /\ runs i o (code crit i o) l'.
Proof.
  intros Hl -> HI Hc. pose proof (own_le _ _ HI) as Hle. destruct HI as [Hw Ho Hn Hwt Hlv Ha]. cbn in Hc. destruct o as [[] []]; cbn in Hc; simplify_eq/=.
  - exists Try. split; [|apply enter_ok]. split; auto.
    + by rewrite (num_move _ _ _ _ Hl) by naive_solver.
    + apply wait_other; [done|]. congruence.
    + intros. eapply live_self; [done|]. unfold lively. auto.
  - exists Bk. split; [|by apply back_ok]. split; auto.
    + by rewrite (num_move _ _ _ _ Hl) by naive_solver.
    + apply wait_other; [done|]. congruence.
    + intros. eapply live_other; [done| |auto]. unfold lively. naive_solver.
  - destruct (decide (i ∈ inside s)) as [Hi|]; [|done]. simplify_eq. exists Lv. split; [|apply leave_ok].
    assert (inside s = [i]) as E. { destruct (inside s) as [|x [|y t]]; cbn in Hle; [by apply elem_of_nil in Hi|by apply elem_of_list_singleton in Hi as ->|lia]. }
    unfold set_inside. rewrite E in *. cbn [length] in Ho. split; cbn [word waiting inside answers]; auto.
    + rewrite filter_cons, decide_False by naive_solver. cbn. rewrite (num_gain _ _ _ _ Hl) by naive_solver. lia.
    + apply wait_other; [done|]. congruence.
    + lia.
  - exists Bk. split; [|by apply back_ok]. split; auto.
    + by rewrite (num_move _ _ _ _ Hl) by naive_solver.
    + apply wait_other; [done|]. congruence.
    + intros. eapply live_other; [done| |auto]. unfold lively. naive_solver.
Qed.
Lemma env_ok s s' ls : Inv s ls -> env crit s s' -> Inv s' ls.
Proof.
  intros [Hw Ho Hn Hwt Hlv Ha] [(i&w&Hp&->)|(w&Hp&->)]; split; cbn [word waiting inside set_waiting answers]; auto.
  - rewrite Hp in Hn. by apply NoDup_cons in Hn as [_ ?].
  - intros j Hj. apply Hwt. rewrite Hp. by right.
  - intros _ _. exists i, Slp. split; [apply Hwt; rewrite Hp; by left|]. right; right; right. split; [done|]. rewrite Hp in Hn. by apply NoDup_cons in Hn as [? _].
  - by rewrite <-Hp.
  - intros j Hj. apply Hwt. by rewrite Hp.
  - intros H0 Hne. destruct Hlv as (j&l&Hj&Hl); [done| |exists j, l; split; [done|]].
    + intros E. apply Hne. rewrite E in Hp. symmetry. by apply Permutation_nil_l.
    + unfold lively in *. cbn. by rewrite <-Hp.
Qed.
Lemma init_ok n : Inv crit_init (replicate n Out).
Proof. split; cbn; auto; [rewrite num_replicate by naive_solver; done|apply NoDup_nil_2|by intros j Hj%elem_of_nil|done]. Qed.
Lemma reach n c : reachable crit crit_init n c -> conf_ok crit Inv (.= Out) blk shape c.
Proof. apply (reach_ok _ _ _ _ _ call_ok env_ok _ _ _ Out); [done|apply init_ok]. Qed.

Lemma no_lost_wake_up n c i : reachable crit crit_init n c -> word c.1 = 0 -> blocked c i ->
  (exists j p, c.2 !! j = Some (Running (true, true) p) /\ ~ blocked c j) \/ (exists j k, c.2 !! j = Some (Running (false, true) (Act wake_by_address_single k))).
Proof.
  intros Hr H0 Hb. pose proof (reach _ _ Hr) as Hok. destruct Hok as (ls&Hlen&HI&Hts). pose proof (ok_blocked _ _ _ _ _ _ _ _ Hlen HI Hts Hb) as (l&Hl&->&Hi).
  destruct (inv_live _ _ HI H0) as (j&lj&Hj&Hlj). { intros E. rewrite E in Hi. by apply elem_of_nil in Hi. }
  assert (exists t, c.2 !! j = Some t) as [t Ht] by (apply lookup_lt_is_Some_2; rewrite <-Hlen; by eapply lookup_lt_Some).
  pose proof (Hts _ _ _ Ht Hj) as Hok. destruct t as [|o p]; [cbn in Hok; subst lj; unfold lively in Hlj; naive_solver|].
  pose proof (ok_shape _ _ _ _ _ _ _ _ _ Hok) as Hsh.
  destruct (decide (lj = Wk)) as [->|Hne]; [right; cbn in Hsh; naive_solver|left]. exists j, p. split.
  - unfold lively in Hlj. destruct lj; cbn in Hsh; naive_solver.
  - intros Hbj. pose proof (ok_blocked _ _ _ _ _ _ _ _ Hlen HI Hts Hbj) as (l'&Hl'&->&Hj'). unfold lively in Hlj. naive_solver.
Qed.
Lemma lost_wake_up n c i : reachable crit crit_init n c -> blocked c i ->
  (exists p, c.2 !! i = Some (Running (true, true) p)) /\
  (word c.1 = 0 ->
   (exists j p, c.2 !! j = Some (Running (true, true) p) /\ ~ blocked c j) \/ (exists j k, c.2 !! j = Some (Running (false, true) (Act wake_by_address_single k)))).
Proof.
  intros Hr Hb. split; [|intros; by eapply no_lost_wake_up].
  pose proof (reach _ _ Hr) as Hok. destruct Hok as (ls&Hlen&HI&Hts). pose proof (ok_blocked _ _ _ _ _ _ _ _ Hlen HI Hts Hb) as (l&Hl&->&Hi).
  destruct Hb as (o&X&m&k&Ht&Hm). specialize (Hts _ _ _ Ht Hl). apply ok_shape in Hts as [-> _]. eauto.
Qed.
Lemma mutual_exclusion n c : reachable crit crit_init n c ->
  (length (inside c.1) <= 1)%nat /\ (forall i, ~ crashed c i) /\ (forall i (o : op) r, (i, o, r) ∈ answers c.1 -> r = if o.2 then 0 else 1).
Proof.
  intros Hr. pose proof (reach _ _ Hr) as Hok. split_and!.
  - destruct Hok as (ls&_&HI&_). by eapply own_le.
  - intros i. by eapply ok_no_crash.
  - destruct Hok as (ls&_&HI&_). intros i o r Hin. pose proof (inv_ans _ _ HI) as Ha. rewrite Forall_forall in Ha. by apply Ha in Hin.
Qed.
Lemma no_deadlock n c : reachable crit crit_init n c -> inside c.1 = [] -> (exists i, blocked c i) -> exists j o p, c.2 !! j = Some (Running o p) /\ ~ blocked c j.
Proof.
  intros Hr Hin [i Hb]. pose proof (reach _ _ Hr) as Hok. destruct Hok as (ls&Hlen&HI&Hts). pose proof (ok_blocked _ _ _ _ _ _ _ _ Hlen HI Hts Hb) as (l&Hl&->&Hi).
  assert (exists j lj, ls !! j = Some lj /\ (lj <> Slp \/ j ∉ waiting c.1) /\ lj <> Out) as (j&lj&Hj&Hlj&Ho).
  { destruct (inv_word _ _ HI) as [H0|H1].
    - destruct (inv_live _ _ HI H0) as (j&lj&Hj&Hlj); [intros E; rewrite E in Hi; by apply elem_of_nil in Hi|]. exists j, lj. unfold lively in Hlj. naive_solver.
    - pose proof (inv_own _ _ HI) as Ho. rewrite Hin, H1 in Ho. cbn [length] in Ho. destruct (num_ex (fun l => owner l) ls) as (j&lj&Hj&Hlj); [lia|]. exists j, lj. naive_solver. }
  assert (exists t, c.2 !! j = Some t) as [t Ht] by (apply lookup_lt_is_Some_2; rewrite <-Hlen; by eapply lookup_lt_Some).
  pose proof (Hts _ _ _ Ht Hj) as Hok. destruct t as [|o p]; [done|]. exists j, o, p. split; [done|]. intros Hbj.
  pose proof (ok_blocked _ _ _ _ _ _ _ _ Hlen HI Hts Hbj) as (l'&Hl'&->&Hj'). naive_solver.
Qed.
