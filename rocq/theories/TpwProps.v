(** C39: TP_WORKER_THREAD with any number of threads n, under every interleaving (src/tp_worker_thread.c). *)
From Verif Require Import Common Prog Conc TpwModel TpwSpec TpwProofs ConcSched.
Local Open Scope Z_scope.

(** In every history the worker function never overlaps itself and every call answers as TpwSpec says; nothing undefined happens. *)
Theorem C39_never_overlaps e f m1 m2 s0 n c : tp_worker_thread_create e f m1 m2 = Some s0 -> reachable worker s0 n c ->
  (forall later ev before, hist c.1 = later ++ ev :: before -> event_ok ev before) /\ (forall i, ~ crashed c i).
Proof. intros Hc Hr. split; [intros ? ? ?; exact (history _ _ _ _ _ _ _ Hc Hr _ _ _)|intros i; exact (no_crash _ _ _ _ _ _ _ Hc Hr i)]. Qed.
Print Assumptions C39_never_overlaps.

(** As long as no scheduling of a work item has failed: while a run is due - some call of schedule_process has returned OK and no run has begun since it was called - a work item is scheduled in the
    thread pool, or a work item or a call of schedule_process is running and does not wait. So a run that is due is never forgotten. Missing: what happens when scheduling a work item fails, below. *)
Theorem C39_run_follows_partial e f m1 m2 s0 n c : tp_worker_thread_create e f m1 m2 = Some s0 -> reachable worker s0 n c -> failed (hist c.1) = false -> due (hist c.1) = true ->
  (0 < pend c.1)%nat \/ exists (j : nat) (o : op) (p : prog tpw res), c.2 !! j = Some (Running o p) /\ ~ blocked c j /\ (o = Work \/ exists ok, o = Schedule true ok).
Proof. intros Hc Hr. exact (progress _ _ _ _ _ _ _ Hc Hr). Qed.
Print Assumptions C39_run_follows_partial.

(** As long as no scheduling has failed: while a call waits, a work item is scheduled in the pool or another call can go on. *)
Theorem C39_no_deadlock_partial e f m1 m2 s0 n c i : tp_worker_thread_create e f m1 m2 = Some s0 -> reachable worker s0 n c -> failed (hist c.1) = false -> blocked c i ->
  (0 < pend c.1)%nat \/ exists (j : nat) (o : op) (p : prog tpw res), c.2 !! j = Some (Running o p) /\ ~ blocked c j.
Proof. intros Hc Hr. exact (no_deadlock _ _ _ _ _ _ _ Hc Hr i). Qed.
Print Assumptions C39_no_deadlock_partial.

(** While the worker thread is closed and no call of open or close is running, the worker function does not run and nothing is scheduled. *)
Theorem C39_closed_is_quiet e f m1 m2 s0 n c : tp_worker_thread_create e f m1 m2 = Some s0 -> reachable worker s0 n c -> is_open (hist c.1) = false -> users (hist c.1) = [] ->
  pend c.1 = 0%nat /\ active (hist c.1) = [] /\ forall j p, c.2 !! j <> Some (Running Work p).
Proof. intros Hc Hr. exact (closed_idle _ _ _ _ _ _ _ Hc Hr). Qed.
Print Assumptions C39_closed_is_quiet.

Theorem C39_create e f m1 m2 : (exists s0, tp_worker_thread_create e f m1 m2 = Some s0) <-> e = true /\ f = true /\ m1 = true /\ m2 = true.
Proof. split; [intros [s0 H]; by destruct e, f, m1, m2|intros (->&->&->&->); cbn; eauto]. Qed.
Print Assumptions C39_create.

Definition s0 : tpw := Tpw 0 [] Closed 0 false false 0 0 0 [].
(** The claim is false when scheduling a work item fails: the first call answers OK although its work item has not been scheduled, so does every later one, and nothing is running or scheduled. *)
Theorem C39_run_follows_refuted : exists c, reachable worker s0 1 c /\ tp_worker_thread_create true true true true = Some s0 /\
  take 1 (hist c.1) = [Returned 0 (Schedule true true) OK] /\ due (hist c.1) = true /\ pend c.1 = 0%nat /\ c.2 = [Idle] /\ active (hist c.1) = [] /\ is_open (hist c.1) = true.
Proof.
  apply (plays_reaches worker [(0, Call (Open true true true)); (0, Go 5); (0, Back); (0, Call (Schedule true false)); (0, Go 6); (0, Back); (0, Call (Schedule true true)); (0, Go 4); (0, Back)]%nat s0 1
    (fun c => tp_worker_thread_create true true true true = Some s0 /\ take 1 (hist c.1) = [Returned 0 (Schedule true true) OK] /\ due (hist c.1) = true /\ pend c.1 = 0%nat /\ c.2 = [Idle] /\ active (hist c.1) = [] /\ is_open (hist c.1) = true)).
  vm_compute. auto 10.
Qed.
Print Assumptions C39_run_follows_refuted.
(** Then a call can also wait for ever, and close after it. *)
Theorem C39_no_deadlock_refuted : exists c, reachable worker s0 2 c /\ blocked c 0 /\ blocked c 1 /\ length c.2 = 2%nat /\ pend c.1 = 0%nat.
Proof.
  destruct (plays_reaches worker [(0, Call (Open true true true)); (0, Go 5); (0, Back); (0, Call (Schedule true true)); (0, Go 2); (1, Call (Schedule true false)); (1, Go 6); (1, Back); (0, Go 3); (1, Call (Close true)); (1, Go 1)]%nat s0 2
    (fun c => blocked_b c 0 = true /\ blocked_b c 1 = true /\ length c.2 = 2%nat /\ pend c.1 = 0%nat)) as (c&Hr&H1&H2&H3); [vm_compute; auto|].
  exists c. split_and!; [done|by apply blocked_true|by apply blocked_true|by destruct H3..].
Qed.
Print Assumptions C39_no_deadlock_refuted.

(** Thread 0 opens and schedules, thread 1 is the pool's; while the function runs thread 2 schedules again: a run is due, and the same work item makes it. *)
Definition schedule : list (nat * turn tpw op) :=
  [(0, Call (Open true true true)); (0, Go 5); (0, Back); (0, Call (Schedule true true)); (0, Go 6); (0, Back); (1, Call Work); (1, Go 1); (2, Call (Schedule true true)); (2, Go 4); (2, Back)]%nat.
Example ex_due : exists c, reachable worker s0 3 c /\ due (hist c.1) = true /\ active (hist c.1) = [1]%nat /\ failed (hist c.1) = false.
Proof. apply (plays_reaches worker schedule). vm_compute. auto. Qed.
Example ex_runs : exists c, reachable worker s0 3 c /\ due (hist c.1) = false /\ c.2 = [Idle; Idle; Idle] /\ omap (fun e => match e with Begins i => Some i | _ => None end) (hist c.1) = [1; 1]%nat.
Proof. apply (plays_reaches worker (schedule ++ [(1, Go 8); (1, Back)]%nat)). vm_compute. auto. Qed.
Example ex_waits : exists c, reachable worker s0 3 c /\ blocked c 0 /\ failed (hist c.1) = false.
Proof. destruct (plays_reaches worker (schedule ++ [(0, Call (Close true)); (0, Go 3)]%nat) s0 3 (fun c => blocked_b c 0 = true /\ failed (hist c.1) = false)) as (c&Hr&H1&H2); [vm_compute; auto|]. exists c. split_and!; [done|by apply blocked_true|done]. Qed.
Example ex_closed : exists c, reachable worker s0 3 c /\ is_open (hist c.1) = false /\ users (hist c.1) = [] /\ length (hist c.1) = 16%nat.
Proof. apply (plays_reaches worker (schedule ++ [(0, Call (Close true)); (0, Go 3); (1, Go 8); (1, Back); (0, Go 2); (0, Back)]%nat)). vm_compute. auto. Qed.
