(** C53: destroying a WORKER_THREAD that any number of threads n have used, under every interleaving (src/worker_thread.c). *)
From Verif Require Import Common Prog Conc Life WthModel WthSpec WtdModel WtdProofs ConcSched.

(** The memory is never used after it has been freed, nor freed twice; nothing else undefined happens, and every call still answers as WthSpec says (destroy as close does). *)
Theorem C53_no_use_after_free f m1 m2 s0 n c : worker_thread_create f m1 m2 = Some s0 -> reachable worker_life (created s0) n c ->
  (forall i, ~ crashed c i) /\ (forall later ev before, hist (base c.1) = later ++ ev :: before -> event_ok ev before).
Proof. intros Hc Hr. split; [intros i; exact (d_no_crash _ _ _ _ _ _ Hc Hr i)|intros ? ? ?; exact (d_history _ _ _ _ _ _ Hc Hr _ _ _)]. Qed.
Print Assumptions C53_no_use_after_free.

(** When destroy returns, the memory has been freed. Once it is, the worker function does not run, the thread that ran it has ended, none is about to start, and no thread is in any call but that destroy. *)
Theorem C53_destroyed f m1 m2 s0 n c : worker_thread_create f m1 m2 = Some s0 -> reachable worker_life (created s0) n c ->
  (forall i r, c.2 !! i = Some (Running Destroy (Ret r)) -> phase c.1 = Gone) /\
  (phase c.1 = Gone -> is_open (hist (base c.1)) = false /\ active (hist (base c.1)) = [] /\ spawn (base c.1) = 0 /\ alive (base c.1) = 0 /\ forall j o p, c.2 !! j = Some (Running o p) -> o = Destroy).
Proof. intros Hc Hr. split; [intros i r; exact (d_freed _ _ _ _ _ _ Hc Hr i r)|exact (d_gone _ _ _ _ _ _ Hc Hr)]. Qed.
Print Assumptions C53_destroyed.

(** While destroy, or another call, waits, the thread is about to start, or it or another call can go on. *)
Theorem C53_no_deadlock f m1 m2 s0 n c i o p : worker_thread_create f m1 m2 = Some s0 -> reachable worker_life (created s0) n c -> c.2 !! i = Some (Running o p) -> o <> Use Worker -> blocked c i ->
  0 < spawn (base c.1) \/ exists j o p, c.2 !! j = Some (Running o p) /\ ~ blocked c j.
Proof. intros Hc Hr. exact (d_no_deadlock _ _ _ _ _ _ Hc Hr i o p). Qed.
Print Assumptions C53_no_deadlock.

(** Thread 0 opens, schedules, and destroys while the created thread 1 runs the function: destroy waits for it; then the thread ends, and destroy frees. *)
Definition s0 : lived wth := created (Wth 0 [] Closed 0 0 0 []).
Definition busy : list (nat * turn (lived wth) (lop op)) :=
  [(0, Call (Use (Open true true))); (0, Go 4); (0, Back); (1, Call (Use Worker)); (0, Call (Use (Schedule true))); (0, Go 4); (0, Back); (1, Go 3); (0, Call Destroy); (0, Go 4)].
Example ex_waits : exists c, reachable worker_life s0 2 c /\ blocked c 0 /\ (exists p, c.2 !! 0 = Some (Running Destroy p)) /\ phase c.1 = Doomed /\ active (hist (base c.1)) = [1].
Proof. destruct (plays_reaches worker_life busy s0 2 (fun c => blocked_b c 0 = true /\ (exists p, c.2 !! 0 = Some (Running Destroy p)) /\ phase c.1 = Doomed /\ active (hist (base c.1)) = [1])) as (c&Hr&H1&H2); [vm_compute; eauto 10|]. exists c. split_and!; [done|by apply blocked_true|apply H2..]. Qed.
Example ex_destroyed : exists c, reachable worker_life s0 2 c /\ phase c.1 = Gone /\ c.2 = [Idle; Idle] /\ length (hist (base c.1)) = 12.
Proof. apply (plays_reaches worker_life (busy ++ [(1, Go 2); (1, Back); (0, Go 3); (0, Back)])). vm_compute. auto. Qed.
