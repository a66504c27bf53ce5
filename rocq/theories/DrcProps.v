(** C56: the references to a TCALL_DISPATCHER, with any number of threads n, under every interleaving (inc/c_util/tcall_dispatcher_ll.h). *)
From Verif Require Import Common Prog Conc DispModel DispSpec DispProofs RefsModel DrcModel DrcProofs ConcSched.
Local Open Scope Z_scope.

(** Whenever the references are given up, no call touches a dispatcher that has been disposed of and nothing else undefined happens, and every history is as C32 says. *)
Theorem C56_histories n c : reachable counted_dispatcher created_dispatcher n c ->
  (forall later e before, hist (base c.1) = later ++ e :: before -> event_ok (regs (base c.1)) e before) /\ (forall i, ~ crashed c i).
Proof. intros Hr. destruct (drc_simulated _ _ Hr) as [bs Hb]. split; [intros ? ? ?; exact (history _ _ _ _ _ Hb)|intros i; exact (drc_no_crash _ _ _ Hr)]. Qed.
Print Assumptions C56_histories.

(** Once the dispatcher is being disposed of, or has been freed, nobody has a reference to it and no register, unregister or dispatch is running. *)
Theorem C56_not_before_last_reference n c : reachable counted_dispatcher created_dispatcher n c -> given_up (hist (base c.1)) = true \/ freed c.1 = true ->
  hands c.1 = 0%nat /\ forall i o p, c.2 !! i <> Some (Running (Use o) p).
Proof. intros Hr [H|H]; apply (drc_closed _ _ Hr); [done|exact (drc_freed _ _ Hr H)]. Qed.
Print Assumptions C56_not_before_last_reference.

(** When no call is running, the dispatcher has been freed exactly if all references have been given up, and the memory in use is that of the targets whose handles are still out, and none once it has been freed. *)
Theorem C56_freed n c : reachable counted_dispatcher created_dispatcher n c -> (forall i t, c.2 !! i = Some t -> t = Idle) ->
  (freed c.1 = true <-> hands c.1 = 0%nat) /\ count c.1 = hands c.1 /\ elements (nodes (base c.1)) ≡ₚ if freed c.1 then [] else handles (hist (base c.1)).
Proof. intros Hr Hi. destruct (drc_idle _ _ Hr Hi) as (?&?&?). done. Qed.
Print Assumptions C56_freed.

(** While a call waits for the lock, another call can go on. *)
Theorem C56_no_deadlock n c i : reachable counted_dispatcher created_dispatcher n c -> blocked c i ->
  exists (j : nat) (o : rop op) (p : prog (counted_state disp) (option res)), c.2 !! j = Some (Running o p) /\ ~ blocked c j.
Proof. exact (drc_waits n c i). Qed.
Print Assumptions C56_no_deadlock.

(** Thread 0 registers a target, copies its reference and gives one up; thread 1 starts a dispatch with the other. *)
Definition schedule : list (nat * turn (counted_state disp) (rop op)) :=
  [(0, Call (Use (Register true 5 50 true))); (0, Go 4); (0, Back); (0, Call Copy); (0, Go 1); (0, Back); (1, Call (Use (Dispatch true 9))); (1, Go 3); (0, Call Drop); (0, Go 1); (0, Back)]%nat.
Example ex_running : exists c, reachable counted_dispatcher created_dispatcher 2 c /\ (hands c.1, count c.1, freed c.1) = (0, 1, false)%nat /\ in_progress (hist (base c.1)) = [(1, 0)]%nat.
Proof. apply (plays_reaches counted_dispatcher schedule). vm_compute. auto. Qed.
(** The dispatch ends, and giving up the last reference disposes of the dispatcher. *)
Definition ending : list (nat * turn (counted_state disp) (rop op)) := [(1, Go 3); (1, Back); (1, Call Drop); (1, Go 1)]%nat.
Example ex_disposing : exists c, reachable counted_dispatcher created_dispatcher 2 c /\ given_up (hist (base c.1)) = true /\ freed c.1 = false /\ handles (hist (base c.1)) = [0]%nat.
Proof. apply (plays_reaches counted_dispatcher (schedule ++ ending)). vm_compute. auto. Qed.
Example ex_freed : exists c, reachable counted_dispatcher created_dispatcher 2 c /\ c.2 = [Idle; Idle] /\ freed c.1 = true /\ elements (nodes (base c.1)) = [].
Proof. apply (plays_reaches counted_dispatcher (schedule ++ ending ++ [(1, Go 6); (1, Back)]%nat)). vm_compute. auto. Qed.
(** Thread 1 waits for the lock while thread 0 registers. *)
Example ex_waits : exists c, reachable counted_dispatcher created_dispatcher 2 c /\ blocked c 1.
Proof.
  destruct (plays_reaches counted_dispatcher [(0, Call Copy); (0, Go 1); (0, Back); (0, Call (Use (Register true 5 50 true))); (0, Go 2); (1, Call (Use (Dispatch true 9)))]%nat created_dispatcher 2 (fun c => blocked_b c 1 = true))
    as (c&Hr&Hb); [vm_compute; auto|]. exists c. split; [done|by apply blocked_true].
Qed.
