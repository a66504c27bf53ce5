(** C40: WORKER_THREAD with any number of threads n, under every interleaving (src/worker_thread.c). *)
From Verif Require Import Common Prog Conc WthModel WthSpec WthProofs ConcSched.
Local Open Scope Z_scope.

(** In every history the worker function never overlaps itself and every call answers as WthSpec says; nothing undefined happens. *)
Theorem C40_never_overlaps f m1 m2 s0 n c : worker_thread_create f m1 m2 = Some s0 -> reachable worker s0 n c ->
  (forall later ev before, hist c.1 = later ++ ev :: before -> event_ok ev before) /\ (forall i, ~ crashed c i).
Proof. intros Hc Hr. split; [intros ? ? ?; exact (history _ _ _ _ _ _ Hc Hr _ _ _)|intros i; exact (no_crash _ _ _ _ _ _ Hc Hr i)]. Qed.
Print Assumptions C40_never_overlaps.

(** While a run is due - some call of schedule_process has returned OK, and since it was called no run has begun and the worker thread has not been closed - the thread that runs the function is about to
    start, or it or a call of schedule_process is running and does not wait. So a run that is due is never forgotten. Missing: close does not make the runs that are due, below. *)
Theorem C40_run_follows_partial f m1 m2 s0 n c : worker_thread_create f m1 m2 = Some s0 -> reachable worker s0 n c -> due true (hist c.1) = true ->
  (0 < spawn c.1)%nat \/ exists (j : nat) (o : op) (p : prog wth res), c.2 !! j = Some (Running o p) /\ ~ blocked c j /\ (o = Worker \/ o = Schedule true).
Proof. intros Hc Hr. exact (progress _ _ _ _ _ _ Hc Hr). Qed.
Print Assumptions C40_run_follows_partial.

(** While a call waits, the thread is about to start or another call, or the thread, can go on. *)
Theorem C40_no_deadlock f m1 m2 s0 n c i o p : worker_thread_create f m1 m2 = Some s0 -> reachable worker s0 n c -> c.2 !! i = Some (Running o p) -> o <> Worker -> blocked c i ->
  (0 < spawn c.1)%nat \/ exists (j : nat) (o : op) (p : prog wth res), c.2 !! j = Some (Running o p) /\ ~ blocked c j.
Proof. intros Hc Hr. exact (no_deadlock _ _ _ _ _ _ Hc Hr i o p). Qed.
Print Assumptions C40_no_deadlock.

(** While it is closed and no call of open or close is running, there is no thread of it. *)
Theorem C40_closed_is_quiet f m1 m2 s0 n c : worker_thread_create f m1 m2 = Some s0 -> reachable worker s0 n c -> is_open (hist c.1) = false -> users (hist c.1) = [] ->
  spawn c.1 = 0%nat /\ active (hist c.1) = [] /\ forall j p, c.2 !! j <> Some (Running Worker p).
Proof. intros Hc Hr. exact (closed_idle _ _ _ _ _ _ Hc Hr). Qed.
Print Assumptions C40_closed_is_quiet.

Theorem C40_create f m1 m2 : (exists s0, worker_thread_create f m1 m2 = Some s0) <-> f = true /\ m1 = true /\ m2 = true.
Proof. split; [intros [s0 H]; by destruct f, m1, m2|intros (->&->&->); cbn; eauto]. Qed.
Print Assumptions C40_create.

Definition s0 : wth := Wth 0 [] Closed 0 0 0 [].
(** The claim is false: a call of schedule_process has answered OK, then the worker thread has been closed, and the function has never run. *)
Theorem C40_run_follows_refuted : exists c, reachable worker s0 2 c /\ worker_thread_create true true true = Some s0 /\ c.2 = [Idle; Idle] /\ spawn c.1 = 0%nat /\ due false (hist c.1) = true /\ is_open (hist c.1) = false /\
  hist c.1 = [Returned 0 (Close true) Void; Returned 1 Worker Void; Closes 0; Called 0 (Close true); Returned 0 (Schedule true) OK; Called 0 (Schedule true); Called 1 Worker; Returned 0 (Open true true) (Int 0); Opens 0; Called 0 (Open true true)]%nat.
Proof.
  apply (plays_reaches worker [(0, Call (Open true true)); (0, Go 4); (0, Back); (1, Call Worker); (0, Call (Schedule true)); (0, Go 4); (0, Back); (0, Call (Close true)); (0, Go 4); (1, Go 1); (1, Back); (0, Go 2); (0, Back)]%nat s0 2
    (fun c => worker_thread_create true true true = Some s0 /\ c.2 = [Idle; Idle] /\ spawn c.1 = 0%nat /\ due false (hist c.1) = true /\ is_open (hist c.1) = false /\ hist c.1 = _)).
  vm_compute. auto 10.
Qed.
Print Assumptions C40_run_follows_refuted.

(** Thread 0 opens and schedules, thread 1 is the created one; it waits, is woken, and while the function runs thread 2 schedules again. *)
Definition schedule : list (nat * turn wth op) := [(0, Call (Open true true)); (0, Go 4); (0, Back); (1, Call Worker); (1, Go 3); (0, Call (Schedule true)); (0, Go 4); (0, Back)]%nat.
Definition busy : list (nat * turn wth op) := schedule ++ [(1, Go 5); (2, Call (Schedule true)); (2, Go 4); (2, Back)]%nat.
Example ex_due : exists c, reachable worker s0 3 c /\ due true (hist c.1) = true /\ spawn c.1 = 0%nat.
Proof. apply (plays_reaches worker schedule). vm_compute. auto. Qed.
Example ex_due_busy : exists c, reachable worker s0 3 c /\ due true (hist c.1) = true /\ active (hist c.1) = [1]%nat.
Proof. apply (plays_reaches worker busy). vm_compute. auto. Qed.
Example ex_runs : exists c, reachable worker s0 3 c /\ due true (hist c.1) = false /\ omap (fun e => match e with Begins i => Some i | _ => None end) (hist c.1) = [1; 1]%nat.
Proof. apply (plays_reaches worker (busy ++ [(1, Go 4)]%nat)). vm_compute. auto. Qed.
Example ex_waits : exists c, reachable worker s0 3 c /\ blocked c 0 /\ (exists p, c.2 !! 0%nat = Some (Running (Close true) p)).
Proof. destruct (plays_reaches worker (busy ++ [(0, Call (Close true)); (0, Go 4)]%nat) s0 3 (fun c => blocked_b c 0 = true /\ (exists p, c.2 !! 0%nat = Some (Running (Close true) p)))) as (c&Hr&H1&H2); [vm_compute; eauto|]. exists c. split_and!; [done|by apply blocked_true|done]. Qed.
Example ex_closed : exists c, reachable worker s0 3 c /\ is_open (hist c.1) = false /\ users (hist c.1) = [] /\ length (hist c.1) = 14%nat.
Proof. apply (plays_reaches worker (busy ++ [(0, Call (Close true)); (0, Go 4); (1, Go 2); (1, Back); (0, Go 2); (0, Back)]%nat)). vm_compute. auto. Qed.
