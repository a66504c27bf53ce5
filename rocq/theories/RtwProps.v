(** C43: the asynchronous retry wrapper. *)
From Verif Require Import Common Prog Conc ConcLists ConcSched RtwModel RtwSpec RtwProofs.
Local Open Scope Z_scope.

(** Whatever the asynchronous function and its callback, the clock, malloc, the copy functions and the threadpool answer, whenever, and in whatever threads: nothing is done with memory that was freed, and everything that the user's functions see is as
    the specification says (the sleeps, the timeout, the arguments given to the callback, what the wrapper answers, ...). The value that means that the asynchronous function has accepted the call must not be one of those on which it is called again. *)
Theorem C43_events_ok C n c : expected_return C ∉ retry_sync C -> reachable (retry_wrapper C) start n c ->
  (forall i, ~ crashed c i) /\ (forall i, ~ blocked c i) /\ forall after e before, hist c.1 = after ++ e :: before -> event_ok C e before.
Proof.
  intros HC Hr. pose proof (reach_inv C HC n c Hr) as Hok. split; [|split].
  - intros i. by eapply ok_no_crash.
  - intros i Hb. destruct Hok as (ls & Hl & HI & Ht). by destruct (ok_blocked _ _ _ _ _ _ _ _ Hl HI Ht Hb) as (l & _ & []).
  - destruct Hok as (ls & _ & HI & _). pose proof (i_ok _ _ _ HI) as H. revert H. generalize (hist c.1). intros h H after e before ->. induction after as [|e' after IH]; destruct H; auto.
Qed.
Print Assumptions C43_events_ok.

(** If the wrapper answers an error then the user's callback is never called, before or after. *)
Theorem C43_error_no_callback C n c r : expected_return C ∉ retry_sync C -> reachable (retry_wrapper C) start n c -> r ∈ answers (hist c.1) -> r <> OK -> users (hist c.1) = 0%nat /\ inflight c.1 = 0%nat /\ work c.1 = 0%nat.
Proof. intros HC Hr Ha Hne. destruct (reach_inv C HC n c Hr) as (ls & _ & HI & _). destruct (i_err _ _ _ HI r Ha Hne). split_and!; [done|lia..]. Qed.
Print Assumptions C43_error_no_callback.

(** When nothing more is going to happen (no thread in a call, no callback and no work function to come) after the wrapper was called: it has answered once; if OK then the user's callback has been called once, else not at all; the context, if there was
    one, was freed once, and so was every copy of an argument; the reference to the threadpool was given back. *)
Theorem C43_all_done C n c : expected_return C ∉ retry_sync C -> reachable (retry_wrapper C) start n c ->
  started c.1 = true -> (forall i t, c.2 !! i = Some t -> t = Idle) -> inflight c.1 = 0%nat -> work c.1 = 0%nat ->
  exists r, answers (hist c.1) = [r] /\ users (hist c.1) = (if decide (r = OK) then 1 else 0)%nat /\ ctx c.1 = None /\ context_freed (hist c.1) = allocations (hist c.1) /\ live (hist c.1) = [] /\ refs c.1 = 0%nat.
Proof.
  intros HC Hr Hst Hidle Hfl Hwk. destruct (reach_inv C HC n c Hr) as (ls & Hl & HI & Ht).
  assert (forall b : lst -> bool, b Out = false -> cnt b ls = 0%nat) as Hcnt.
  { intros b Hb. destruct (cnt b ls) eqn:E; [done|]. destruct (cnt_ex b ls) as (j&lj&Hj&Hbj); [lia|]. destruct (lookup_lt_is_Some_2 c.2 j) as [t Hj']; [rewrite <-Hl; by eapply lookup_lt_Some|]. pose proof (Hidle _ _ Hj') as ->.
    pose proof (Ht _ _ _ Hj' Hj) as Hi. cbn in Hi. subst lj. congruence. }
  pose proof (i_wr _ _ _ HI) as Hw. rewrite Hst, Hcnt in Hw by done. destruct (answers (hist c.1)) as [|r [|]] eqn:Ha; try (cbn in Hw; lia). exists r. split; [done|].
  destruct (i_end _ _ _ HI Hst) as (H1&H2&H3&H4&H5). { rewrite Hcnt by done. lia. }
  split_and!; try done. destruct (decide (r = OK)) as [->|Hne].
  - destruct H5 as [?|(r' & Hr' & ?)]; [done|]. congruence.
  - apply (i_err _ _ _ HI r); [rewrite Ha; left|done].
Qed.
Print Assumptions C43_all_done.

(** The condition is needed: if the expected answer is also one on which to retry, the wrapper goes on to use the context that the callback has freed. *)
Definition C1 := Config 0 [7] [true; false; true] 0 [5] [90] [91].
Definition C2 := Config 0 [0; 7] [true; false; true] 0 [5] [90] [91].
Definition ch (v : Z) : nat * turn st op := (0%nat, Env (fun s => St (ctx s) (inflight s) (work s) (refs s) (started s) v (hist s))).
Theorem C43_expected_also_retried_refuted : exists c i, reachable (retry_wrapper C2) start 2 c /\ crashed c i.
Proof.
  destruct (plays_reaches (retry_wrapper C2) [(0, Call (Wrap true true true true 100)); ch 1; (0, Go 1); ch 0; (0, Go 8); (1, Call (Complete [1%Z])); (1, Go 5); (1, Back)]%nat start 2 (fun c => crashed_b c 0 = true)) as (c & Hr & Hc).
  { vm_compute. eauto 10. }
  exists c, 0%nat. split; [done|]. by apply crashed_true.
Qed.
Print Assumptions C43_expected_also_retried_refuted.

(** One synchronous and one asynchronous retry, then the callback; the second call of the asynchronous function is in another thread. *)
Definition first_try : list (nat * turn st op) := [(0, Call (Wrap true true true true 100)); ch 1; (0, Go 1); ch 0; (0, Go 7); ch 7; (0, Go 2); ch 2000000; (0, Go 3); ch 0; (0, Go 1)]%nat.
Example ex_done : exists c, reachable (retry_wrapper C1) start 3 c /\ started c.1 = true /\ c.2 = [Idle; Idle; Idle] /\ inflight c.1 = 0%nat /\ work c.1 = 0%nat /\ answers (hist c.1) = [OK] /\ users (hist c.1) = 1%nat /\ sleeps (hist c.1) = 1%nat /\
  omap (fun e => match e with User a => Some a | _ => None end) (hist c.1) = [[1]].
Proof.
  apply (plays_reaches (retry_wrapper C1) (first_try ++ [(1, Call (Complete [5%Z])); (1, Go 3); (1, Back); (2, Call Retry); (2, Go 1); (0, Back); (2, Back); (1, Call (Complete [1%Z])); (1, Go 5); (1, Back)]%nat)). vm_compute. eauto 20.
Qed.
Example ex_timeout : exists c, reachable (retry_wrapper C1) start 3 c /\ started c.1 = true /\ c.2 = [Idle; Idle; Idle] /\ inflight c.1 = 0%nat /\ work c.1 = 0%nat /\ answers (hist c.1) = [TIMEOUT] /\ users (hist c.1) = 0%nat /\ context_freed (hist c.1) = 1%nat.
Proof.
  apply (plays_reaches (retry_wrapper C1) [(0, Call (Wrap true true true true 100)); ch 1; (0, Go 1); ch 0; (0, Go 7); ch 7; (0, Go 2); ch 100000000; (0, Go 5); (0, Back)]%nat). vm_compute. eauto 20.
Qed.
Example ex_timeout_later : exists c, reachable (retry_wrapper C1) start 3 c /\ answers (hist c.1) = [OK] /\ omap (fun e => match e with User a => Some a | _ => None end) (hist c.1) = [[91]].
Proof. apply (plays_reaches (retry_wrapper C1) (first_try ++ [(0, Back); (1, Call (Complete [5%Z])); ch 100000000; (1, Go 3)]%nat)). vm_compute. eauto 20. Qed.
Example ex_copy_fails : exists c, reachable (retry_wrapper C1) start 1 c /\ answers (hist c.1) = [COPY_ARG_ERROR] /\ omap (fun e => match e with Freed k => Some k | _ => None end) (hist c.1) = [0%nat].
Proof. apply (plays_reaches (retry_wrapper C1) [(0, Call (Wrap true true true true UINT32_MAX)); ch 1; (0, Go 1); ch 0; (0, Go 2); ch 1; (0, Go 3); (0, Back)]%nat). vm_compute. eauto 20. Qed.
