(** C53: destroying a TP_WORKER_THREAD that any number of threads n have used, under every interleaving (src/tp_worker_thread.c). *)
From Verif Require Import Common Prog Conc Life TpwModel TpwSpec TpdModel TpdProofs ConcSched.

(** The memory is never used after it has been freed, nor freed twice; nothing else undefined happens, and every call still answers as TpwSpec says (destroy as close does). *)
Theorem C53_tp_no_use_after_free e f m1 m2 s0 n c : tp_worker_thread_create e f m1 m2 = Some s0 -> reachable worker_life (created s0) n c ->
  (forall i, ~ crashed c i) /\ (forall later ev before, hist (base c.1) = later ++ ev :: before -> event_ok ev before).
Proof. intros Hc Hr. split; [intros i; exact (d_no_crash _ _ _ _ _ _ _ Hc Hr i)|intros ? ? ?; exact (d_history _ _ _ _ _ _ _ Hc Hr _ _ _)]. Qed.
Print Assumptions C53_tp_no_use_after_free.

(** When destroy returns, the memory has been freed. Once it is, the worker function does not run, and nothing that could run it is left: no work item is scheduled, the pool and the work item have been given
    back, and no thread is in any call but that destroy. *)
Theorem C53_tp_destroyed e f m1 m2 s0 n c : tp_worker_thread_create e f m1 m2 = Some s0 -> reachable worker_life (created s0) n c ->
  (forall i r, c.2 !! i = Some (Running Destroy (Ret r)) -> phase c.1 = Gone) /\
  (phase c.1 = Gone -> is_open (hist (base c.1)) = false /\ active (hist (base c.1)) = [] /\ pend (base c.1) = 0 /\ pool (base c.1) = false /\ item (base c.1) = false /\
    forall j o p, c.2 !! j = Some (Running o p) -> o = Destroy).
Proof. intros Hc Hr. split; [intros i r; exact (d_freed _ _ _ _ _ _ _ Hc Hr i r)|exact (d_gone _ _ _ _ _ _ _ Hc Hr)]. Qed.
Print Assumptions C53_tp_destroyed.

(** As long as no scheduling of a work item has failed (missing: when one has; then it is false, C39_no_deadlock_refuted): while destroy, or another call, waits, a work item is scheduled in the pool or another call can go on. *)
Theorem C53_tp_no_deadlock_partial e f m1 m2 s0 n c i : tp_worker_thread_create e f m1 m2 = Some s0 -> reachable worker_life (created s0) n c -> failed (hist (base c.1)) = false -> blocked c i ->
  0 < pend (base c.1) \/ exists j o p, c.2 !! j = Some (Running o p) /\ ~ blocked c j.
Proof. intros Hc Hr. exact (d_no_deadlock _ _ _ _ _ _ _ Hc Hr i). Qed.
Print Assumptions C53_tp_no_deadlock_partial.

(** Thread 0 opens, schedules, and destroys while the pool's thread 1 runs the function: destroy waits for it; then the function ends, and destroy frees. *)
Definition s0 : lived tpw := created (Tpw 0 [] Closed 0 false false 0 0 0 []).
Definition busy : list (nat * turn (lived tpw) (lop op)) :=
  [(0, Call (Use (Open true true true))); (0, Go 5); (0, Back); (0, Call (Use (Schedule true true))); (0, Go 6); (0, Back); (1, Call (Use Work)); (1, Go 1); (0, Call Destroy); (0, Go 3)].
Example ex_waits : exists c, reachable worker_life s0 2 c /\ blocked c 0 /\ phase c.1 = Doomed /\ active (hist (base c.1)) = [1] /\ failed (hist (base c.1)) = false.
Proof. destruct (plays_reaches worker_life busy s0 2 (fun c => blocked_b c 0 = true /\ phase c.1 = Doomed /\ active (hist (base c.1)) = [1] /\ failed (hist (base c.1)) = false)) as (c&Hr&H1&H2); [vm_compute; auto|]. exists c. split_and!; [done|by apply blocked_true|apply H2..]. Qed.
Example ex_destroyed : exists c, reachable worker_life s0 2 c /\ phase c.1 = Gone /\ c.2 = [Idle; Idle] /\ length (hist (base c.1)) = 12.
Proof. apply (plays_reaches worker_life (busy ++ [(1, Go 3); (1, Back); (0, Go 3); (0, Back)])). vm_compute. auto. Qed.
