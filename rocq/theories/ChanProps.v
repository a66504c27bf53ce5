(** C33, C34: the channel. *)
From Verif Require Import Common Prog Conc ConcLists ConcSched ChanModel ChanSpec ChanProofs ChanProofs2 ChanProofs3 ChanProofs4 ChanProofs5 ChanProofs6 ChanProofs7.
Local Open Scope Z_scope.

Lemma ok_at after e before : all_ok (after ++ e :: before) -> event_ok e before.
Proof. induction after as [|e' after IH]; intros [? ?]; auto. Qed.

(** If no operation is cancelled, or the handles are kept and cancellation happens neither when the callbacks have started nor while the channel is being closed (ChanModel.mode), and the threadpool does not fail: nothing is done with memory that was
    freed, or with the channel through an operation that has let go of it; every push and pull accepted is called back at most once, with OK and the number and data of the partner that the order of the calls gives it, or CANCELLED after async_op_cancel was
    called on it, or ABANDONED after channel_close has begun; and so on as event_ok says.
    Missing: the other ways to call async_op_cancel, and threadpool failures: both are refuted below. *)
Theorem C33_events_ok_partial m n c : m <> Wild -> reachable (channel m) start n c ->
  (forall i, ~ crashed c i) /\ forall after e before, hist c.1 = after ++ e :: before -> event_ok e before.
Proof.
  intros Hm Hr. pose proof (reach_inv m Hm n c Hr) as Hok. split.
  - intros i. by eapply ok_no_crash.
  - destruct Hok as (ls & _ & (M&G&HI) & _). intros after e before E. eapply ok_at. rewrite <-E. apply (i_ok _ _ _ _ _ HI).
Qed.
Print Assumptions C33_events_ok_partial.

(** The list of operations never holds both a push and a pull. *)
Theorem C33_not_both_partial m n c k1 k2 o1 o2 : m <> Wild -> reachable (channel m) start n c -> k1 ∈ queue c.1 -> k2 ∈ queue c.1 -> ops c.1 !! k1 = Some o1 -> ops c.1 !! k2 = Some o2 -> ~ (is_Some (pull o1) /\ is_Some (push o2)).
Proof.
  intros Hm Hr K1 K2 Ho1 Ho2 [[x Hx] [y Hy]]. destruct (reach_inv m Hm n c Hr) as (ls & _ & (M&G&HI) & _). pose proof (i_store _ _ _ _ _ HI) as Hst.
  assert (G !! k2 = Some PQ) as Hg by (by apply (s_q _ _ _ _ _ _ _ _ Hst)). destruct (s_good _ _ _ _ _ _ _ _ Hst _ _ _ Ho2 Hg) as (_&_&Hsi&_). destruct Hsi as [(z&_&E&_)|(z&d&_&E&Ed)]; [congruence|].
  assert (x ∈ omap (qpull (ops c.1)) (queue c.1)) as P1 by (apply elem_of_list_omap; exists k1; unfold qpull; by rewrite Ho1). assert ((z, d) ∈ omap (qpush (ops c.1)) (queue c.1)) as P2 by (apply elem_of_list_omap; exists k2; unfold qpush; by rewrite Ho2, E, Ed).
  destruct (s_kind _ _ _ _ _ _ _ _ Hst) as [E0|E0]; rewrite E0 in *; [by inversion P2|by inversion P1].
Qed.
Print Assumptions C33_not_both_partial.

(** Whenever no thread is in a call and the threadpool has nothing to run: every push and pull accepted was answered once, and has been called back or waits for a partner; if the channel has been closed it has been called back. *)
Theorem C33_all_called_back_partial m n c x k : m <> Wild -> reachable (channel m) start n c -> (forall i t, c.2 !! i = Some t -> t = Idle) -> work c.1 = [] -> handle (hist c.1) x k ->
  answered x (hist c.1) = 1%nat /\ (called_back (hist c.1) x \/ waiting (hist c.1) x) /\ (alive (hist c.1) = false -> called_back (hist c.1) x).
Proof.
  intros Hm Hr Hidle Hw Hx. destruct (reach_inv m Hm n c Hr) as (ls & Hl & (M&G&HI) & Ht). pose proof (i_store _ _ _ _ _ HI) as Hst. pose proof (s_hlt _ _ _ _ _ _ _ _ Hst _ _ Hx) as Hlt.
  assert (forall j lj, ls !! j = Some lj -> lj = Out) as Hout.
  { intros j lj Hj. destruct (lookup_lt_is_Some_2 c.2 j) as [t Hj']; [rewrite <-Hl; by eapply lookup_lt_Some|]. pose proof (Hidle _ _ Hj') as ->. by pose proof (Ht _ _ _ Hj' Hj). }
  assert (forall b : lst -> bool, b Out = false -> cnt b ls = 0%nat) as Hcnt.
  { intros b Hb. destruct (cnt b ls) eqn:E; [done|]. destruct (cnt_ex b ls) as (j&lj&Hj&Hbj); [lia|]. rewrite (Hout _ _ Hj) in Hbj. congruence. }
  destruct (s_all _ _ _ _ _ _ _ _ Hst _ Hlt) as (k'&o&Ho&Hxo). destruct (place_of _ _ _ _ _ _ _ HI Ho) as (g&Hg&Hgood).
  assert (g = PQ \/ g = PD) as Hpl.
  { destruct g as [| | |j|j st r|]; [by left|..|by right]; exfalso.
    - assert (sm c.1 = 3%nat) as E3. { apply (i_loc _ _ _ _ _ HI). intros E. pose proof (proj2 (proj2 (s_l _ _ _ _ _ _ _ _ Hst) k') Hg) as H. rewrite E in H. by inversion H. } pose proof (i_clr _ _ _ _ _ HI) as Hc. rewrite E3, Hcnt in Hc by done. done.
    - pose proof (proj2 (proj2 (s_w _ _ _ _ _ _ _ _ Hst) k') Hg) as H. rewrite Hw in H. by inversion H.
    - apply (i_own _ _ _ _ _ HI k' (PC j) j eq_refl) in Hg as (lj&Hj&Hmi). by rewrite (Hout _ _ Hj) in Hmi.
    - apply (i_own _ _ _ _ _ HI k' (PE j st r) j eq_refl) in Hg as (lj&Hj&Hmi). by rewrite (Hout _ _ Hj) in Hmi. }
  split; [|split].
  - pose proof (i_ret _ _ _ _ _ HI x) as Hret. rewrite Hcnt in Hret by done. destruct (Nat.ltb_spec x (next c.1)); lia.
  - destruct Hpl as [->| ->]; [right|left; by apply Hgood]. eapply waiting_store; [exact Hst| |exact Ho|exact Hxo]. by apply (s_q _ _ _ _ _ _ _ _ Hst).
  - intros Ha. destruct Hpl as [->| ->]; [exfalso|by apply Hgood]. assert (0 < length (cids o))%nat as Hne by (eapply cids_ne; [exact Hgood|by left]). pose proof (total_ge _ _ _ _ _ Ho Hg) as Htot. cbn in Htot.
    rewrite (i_alive _ _ _ _ _ HI) in Ha. destruct (i_sm _ _ _ _ _ HI) as [E|E]; [rewrite (i_ex _ _ _ _ _ HI); lia|by rewrite E in Ha..].
Qed.
Print Assumptions C33_all_called_back_partial.

(** Only channel_close waits, and only while another thread is in a call or the threadpool has something to run: not for operations that nobody will complete. *)
Theorem C33_close_waits_partial m n c i : m <> Wild -> reachable (channel m) start n c -> blocked c i -> (exists p, c.2 !! i = Some (Running Close p)) /\ (work c.1 <> [] \/ exists j o p, j <> i /\ c.2 !! j = Some (Running o p)).
Proof.
  intros Hm Hr Hb. destruct (reach_inv m Hm n c Hr) as (ls & Hl & HInv & Ht). pose proof Hb as (o&X&mm&kk&Hi&_). destruct (ok_blocked _ _ _ _ _ _ _ _ Hl HInv Ht Hb) as (l&Hli&(->&Hex)). destruct HInv as (M&G&HI). pose proof (i_store _ _ _ _ _ HI) as Hst.
  pose proof (Ht _ _ _ Hi Hli) as Hth. apply ok_shape in Hth as [_ Hth]. rewrite (Hth eq_refl) in Hi. split; [by eexists|].
  assert (forall j lj, ls !! j = Some lj -> lj <> Out -> lj <> Cl2 -> exists j o p, j <> i /\ c.2 !! j = Some (Running o p)) as Hrun.
  { intros j lj Hj H1 H2. assert (j <> i) as Hne by congruence. destruct (lookup_lt_is_Some_2 c.2 j) as [t Hj']; [rewrite <-Hl; by eapply lookup_lt_Some|]. pose proof (Ht _ _ _ Hj' Hj) as Htj. destruct t as [|o' p']; [done|]. exists j, o', p'. done. }
  pose proof (i_fine _ _ _ _ _ HI _ _ Hli) as [Hf1 Hf2]. destruct (cnt inx ls) eqn:Ec; [|right; destruct (cnt_ex inx ls) as (j&lj&Hj&Hx); [lia|]; apply (Hrun j lj Hj); by destruct lj].
  assert (total (ops c.1) G <> 0%nat) as Htot by (rewrite (i_ex _ _ _ _ _ HI) in Hex; lia).
  destruct (decide (work c.1 = [])) as [Hw|Hw]; [|by left]. right.
  destruct (cnt (fun l => match l with Out | Cl2 => false | _ => true end) ls) eqn:En; [|destruct (cnt_ex (fun l => match l with Out | Cl2 => false | _ => true end) ls) as (j&lj&Hj&Hx); [lia|]; apply (Hrun j lj Hj); by destruct lj].
  exfalso. apply Htot. apply total_zero. intros k o' g Ho Hg.
  assert (forall j lj, ls !! j = Some lj -> forall k g, ~ mine j lj k g) as Hmi.
  { intros j lj Hj k0 g0 Hmk. assert (match lj with Out | Cl2 => false | _ => true end = true) as Hx by (by destruct lj). pose proof (cnt_pos (fun l => match l with Out | Cl2 => false | _ => true end) ls j lj Hj Hx). lia. }
  destruct g as [| | |j|j st r|]; [..|done]; exfalso.
  - pose proof (proj2 (proj2 (s_q _ _ _ _ _ _ _ _ Hst) k) Hg) as H. rewrite (i_q _ _ _ _ _ HI Hf1) in H. by inversion H.
  - pose proof (proj2 (proj2 (s_l _ _ _ _ _ _ _ _ Hst) k) Hg) as H. rewrite Hf2 in H. by inversion H.
  - pose proof (proj2 (proj2 (s_w _ _ _ _ _ _ _ _ Hst) k) Hg) as H. rewrite Hw in H. by inversion H.
  - apply (i_own _ _ _ _ _ HI k (PC j) j eq_refl) in Hg as (lj&Hj&Hmk). by eapply Hmi.
  - apply (i_own _ _ _ _ _ HI k (PE j st r) j eq_refl) in Hg as (lj&Hj&Hmk). by eapply Hmi.
Qed.
Print Assumptions C33_close_waits_partial.

(** async_op_cancel, called while the operation waits for its partner or while its callbacks are scheduled, and the channel is not being closed, does nothing with freed memory and does not wait; when it has returned (and found the operation running) the
    callbacks get CANCELLED. Missing: the rest of the life of the operation, refuted below. *)
Theorem C34_cancel_safe_partial n c : reachable (channel NoReleases) start n c -> (forall i, ~ crashed c i) /\ (forall i k sched p, c.2 !! i = Some (Running (Cancel k sched) p) -> ~ blocked c i) /\
  forall after before x k r pl ps d, hist c.1 = after ++ Callback x r pl ps d :: before -> handle before x k -> cancel_done before k -> r = CANCELLED.
Proof.
  intros Hr. destruct (C33_events_ok_partial NoReleases n c ltac:(done) Hr) as [Hnc Hev]. split; [done|]. split.
  - intros i k sched p Hi Hb. destruct (C33_close_waits_partial NoReleases n c i ltac:(done) Hr Hb) as [[p' Hp'] _]. congruence.
  - intros after before x k r pl ps d E Hh Hcd. destruct (Hev _ _ _ E) as (_&(k'&Hk'&H1&_)&_). assert (k' = k) as ->; [|auto].
    destruct (reach_inv NoReleases ltac:(done) n c Hr) as (ls & _ & (M&G&HI) & _). assert (forall k, handle before x k -> handle (hist c.1) x k) as Hmono. { intros k0 [H|[d0 H]]; [left|right; exists d0]; rewrite E; apply elem_of_app; right; by right. }
    eapply (s_uniq _ _ _ _ _ _ _ _ (i_store _ _ _ _ _ HI)); by apply Hmono.
Qed.
Print Assumptions C34_cancel_safe_partial.

(** Not safe: cancelling an operation whose callbacks have run (its channel is NULL then). The caller holds a reference to it. *)
Notation opened := [(0, Call Open); (0, Go 3); (0, Back)]%nat.
Definition pushing (d : Z) : list (nat * turn st op) := [(0, Call (Push d true true)); (0, Go 2); (0, Back)]%nat.
Definition pulling : list (nat * turn st op) := [(0, Call (Pull true true)); (0, Go 2); (0, Back)]%nat.
Definition working (k : nat) : list (nat * turn st op) := [(0, Call (Work k)); (0, Go 6); (0, Back)]%nat.
Theorem C34_after_completion_refuted : exists c i k, reachable (channel Wild) start 1 c /\ crashed c i /\ called_back (hist c.1) 0 /\ exists o, ops c.1 !! k = Some o /\ urefs o <> 0%nat.
Proof.
  destruct (plays_reaches (channel Wild) (opened ++ pushing 5 ++ pulling ++ working 0 ++ [(0, Call (Cancel 0 true)); (0, Go 1)]%nat) start 1
    (fun c => crashed_b c 0 = true /\ called_back (hist c.1) 0 /\ exists o, ops c.1 !! 0%nat = Some o /\ urefs o <> 0%nat)) as (c & Hr & Hc & H).
  { vm_compute. split; [done|]. split; [exists OK, (Some 1%nat), (Some 0%nat), None; by repeat first [apply elem_of_list_here | apply elem_of_list_further]|]. eexists. split; [done|]. done. }
  exists c, 0%nat, 0%nat. split; [done|]. split; [by apply crashed_true|done].
Qed.
Print Assumptions C34_after_completion_refuted.
(** Not safe: cancelling an operation whose callbacks are scheduled, when the operation that was behind it in the list is gone since. *)
Theorem C34_successor_refuted : exists c i, reachable (channel Wild) start 1 c /\ crashed c i /\ ~ called_back (hist c.1) 0.
Proof.
  destruct (plays_reaches (channel Wild) (opened ++ pushing 5 ++ pushing 6 ++ pulling ++ pulling ++ working 1 ++ [(0, Call (Release 1)); (0, Back); (0, Call (Release 1)); (0, Back); (0, Call (Cancel 0 true)); (0, Go 3)]%nat) start 1
    (fun c => crashed_b c 0 = true /\ forallb (fun e => match e with Callback 0 _ _ _ _ => false | _ => true end) (hist c.1) = true)) as (c & Hr & Hc & H).
  { vm_compute. done. }
  exists c, 0%nat. split; [done|]. split; [by apply crashed_true|]. intros (r&pl&ps&d&Hin). rewrite forallb_forall in H. apply elem_of_list_In, H in Hin. done.
Qed.
Print Assumptions C34_successor_refuted.
(** Not safe: cancelling an operation that waits for its partner, while the channel is being closed. *)
Theorem C34_while_closing_refuted : exists c i, reachable (channel Wild) start 2 c /\ crashed c i /\ ~ called_back (hist c.1) 0.
Proof.
  destruct (plays_reaches (channel Wild) (opened ++ pushing 5 ++ [(0, Call (Cancel 0 true)); (0, Go 3); (1, Call Close); (1, Go 2)]%nat) start 2
    (fun c => crashed_b c 0 = true /\ forallb (fun e => match e with Callback 0 _ _ _ _ => false | _ => true end) (hist c.1) = true)) as (c & Hr & Hc & H).
  { vm_compute. done. }
  exists c, 0%nat. split; [done|]. split; [by apply crashed_true|]. intros (r&pl&ps&d&Hin). rewrite forallb_forall in H. apply elem_of_list_In, H in Hin. done.
Qed.
Print Assumptions C34_while_closing_refuted.
(** Not safe: cancelling an operation whose callbacks are scheduled, and start before async_op_cancel has read the channel. *)
Theorem C34_callbacks_start_refuted : exists c i, reachable (channel Wild) start 2 c /\ crashed c i /\ ~ called_back (hist c.1) 0.
Proof.
  destruct (plays_reaches (channel Wild) (opened ++ pushing 5 ++ pulling ++ [(0, Call (Cancel 0 true)); (0, Go 1); (1, Call (Work 0)); (1, Go 3)]%nat) start 2
    (fun c => crashed_b c 0 = true /\ forallb (fun e => match e with Callback 0 _ _ _ _ => false | _ => true end) (hist c.1) = true)) as (c & Hr & Hc & H).
  { vm_compute. done. }
  exists c, 0%nat. split; [done|]. split; [by apply crashed_true|]. intros (r&pl&ps&d&Hin). rewrite forallb_forall in H. apply elem_of_list_In, H in Hin. done.
Qed.
Print Assumptions C34_callbacks_start_refuted.
(** If threadpool_schedule_work fails, an accepted push is never called back, though it is not waiting for a partner and nothing is left to run; and channel_close waits forever. *)
Theorem C33_threadpool_failure_refuted : exists c, reachable (channel Wild) start 1 c /\ work c.1 = [] /\ queue c.1 = [] /\ c.2 = [Idle] /\ (exists k, handle (hist c.1) 0 k) /\ ~ called_back (hist c.1) 0.
Proof.
  destruct (plays_reaches (channel Wild) (opened ++ pushing 5 ++ [(0, Call (Pull true false)); (0, Go 3); (0, Back)]%nat) start 1
    (fun c => work c.1 = [] /\ queue c.1 = [] /\ c.2 = [Idle] /\ (exists k, handle (hist c.1) 0 k) /\ forallb (fun e => match e with Callback 0 _ _ _ _ => false | _ => true end) (hist c.1) = true)) as (c & Hr & H1 & H2 & H3 & H4 & H).
  { vm_compute. split_and!; try done. exists 0%nat. right. exists 5. by repeat first [apply elem_of_list_here | apply elem_of_list_further]. }
  exists c. split_and!; try done. intros (r&pl&ps&d&Hin). rewrite forallb_forall in H. apply elem_of_list_In, H in Hin. done.
Qed.
Print Assumptions C33_threadpool_failure_refuted.
Theorem C33_close_hangs_refuted : exists c, reachable (channel Wild) start 1 c /\ blocked c 0 /\ work c.1 = [] /\ length c.2 = 1%nat.
Proof.
  destruct (plays_reaches (channel Wild) (opened ++ pushing 5 ++ [(0, Call (Pull true false)); (0, Go 3); (0, Back); (0, Call Close); (0, Go 3)]%nat) start 1 (fun c => blocked_b c 0 = true /\ work c.1 = [] /\ length c.2 = 1%nat)) as (c & Hr & Hb & H).
  { vm_compute. done. }
  exists c. split; [done|]. split; [by apply blocked_true|done].
Qed.
Print Assumptions C33_close_hangs_refuted.

(** A push matched with a pull; a push that waits is cancelled; a matched pair of which the push is cancelled before its callbacks run: both get CANCELLED; a push is abandoned; a pull after that is refused. *)
Definition callbacks (h : list event) : list (nat * cres * option Z) := omap (fun e => match e with Callback x r _ _ d => Some (x, r, d) | _ => None end) h.
Example ex_run : exists c, reachable (channel NoReleases) start 1 c /\ c.2 = [Idle] /\ work c.1 = [] /\ alive (hist c.1) = false /\ callbacks (hist c.1) = [(5%nat, ABANDONED, None); (3%nat, CANCELLED, None); (4%nat, CANCELLED, Some 7); (2%nat, CANCELLED, None); (0%nat, OK, None); (1%nat, OK, Some 5)].
Proof.
  apply (plays_reaches (channel NoReleases) (opened ++ pushing 5 ++ pulling ++ working 0 ++ pushing 6 ++ [(0, Call (Cancel 1 true)); (0, Go 7); (0, Back)]%nat ++ working 1 ++ pushing 7 ++ pulling ++
    [(0, Call (Cancel 2 true)); (0, Go 6); (0, Back)]%nat ++ working 2 ++ pushing 8 ++ [(0, Call Close); (0, Go 12); (0, Back); (0, Call (Pull true true)); (0, Go 1); (0, Back)]%nat)). vm_compute. done.
Qed.
(** An operation waits; a cancellation is on its way; channel_close waits for callbacks that are scheduled. *)
Example ex_waiting : exists c, reachable (channel NoReleases) start 1 c /\ c.2 = [Idle] /\ work c.1 = [] /\ handle (hist c.1) 0 0 /\ waiting (hist c.1) 0 /\ queue c.1 = [0; 1]%nat.
Proof.
  apply (plays_reaches (channel NoReleases) (opened ++ pulling ++ pulling)). vm_compute. split_and!; try done; [by left; repeat first [apply elem_of_list_here | apply elem_of_list_further]|]. right. exists 0%nat. split; [done|lia].
Qed.
Example ex_cancelling : exists c p, reachable (channel NoReleases) start 1 c /\ c.2 = [Running (Cancel 0 true) p].
Proof.
  destruct (plays_reaches (channel NoReleases) (opened ++ pushing 5 ++ [(0, Call (Cancel 0 true)); (0, Go 4)]%nat) start 1 (fun c => exists p, c.2 = [Running (Cancel 0 true) p])) as (c&Hr&p&H); [vm_compute; by eexists|]. by exists c, p.
Qed.
Example ex_cancelled_done : exists c, reachable (channel NoReleases) start 1 c /\ exists before, hist c.1 = [] ++ Callback 0 CANCELLED None (Some 0%nat) None :: before /\ handle before 0 0 /\ cancel_done before 0.
Proof.
  apply (plays_reaches (channel NoReleases) (opened ++ pushing 5 ++ [(0, Call (Cancel 0 true)); (0, Go 7); (0, Back); (0, Call (Work 0)); (0, Go 5)]%nat)). vm_compute. eexists. split; [done|]. split.
  - right. exists 5. by repeat first [apply elem_of_list_here | apply elem_of_list_further].
  - exists 0%nat, true. by repeat first [apply elem_of_list_here | apply elem_of_list_further].
Qed.
Example ex_close_waits : exists c, reachable (channel NoCancels) start 1 c /\ blocked c 0 /\ work c.1 = [0%nat].
Proof.
  destruct (plays_reaches (channel NoCancels) (opened ++ pushing 5 ++ pulling ++ [(0, Call Close); (0, Go 3)]%nat) start 1 (fun c => blocked_b c 0 = true /\ work c.1 = [0%nat])) as (c & Hr & Hb & H); [by vm_compute|].
  exists c. split; [done|]. split; [by apply blocked_true|done].
Qed.
(** A callback may run after channel_close has returned: end_execs comes before the callbacks. *)
Example ex_late : exists c, reachable (channel NoCancels) start 2 c /\ exists before, hist c.1 = Callback 1 OK (Some 1%nat) (Some 0%nat) (Some 5) :: before /\ Returned 1 Close Void ∈ before.
Proof.
  apply (plays_reaches (channel NoCancels) (opened ++ pushing 5 ++ pulling ++ [(0, Call (Work 0)); (0, Go 2); (1, Call Close); (1, Go 4); (1, Back); (0, Go 2)]%nat)). vm_compute. eexists. split; [done|]. by repeat first [apply elem_of_list_here | apply elem_of_list_further].
Qed.
