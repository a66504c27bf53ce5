(** C32: TCALL_DISPATCHER with any number of threads n, under every interleaving (inc/c_util/tcall_dispatcher_ll.h). *)
From Verif Require Import Common Prog Conc DispModel DispSpec DispProofs ConcSched.
Local Open Scope Z_scope.

(** Every call, answer and invocation of every history is as DispSpec says; no target is in the order of registration twice; nothing undefined happens. *)
Theorem C32_dispatch n c : reachable dispatcher created n c ->
  (forall later e before, hist c.1 = later ++ e :: before -> event_ok (regs c.1) e before) /\ NoDup (th <$> regs c.1) /\ (forall i, ~ crashed c i).
Proof. intros Hr. split_and!; [intros ? ? ?; exact (history _ _ _ _ _ Hr)|exact (order_nodup _ _ Hr)|intros i; exact (no_crash _ _ _ Hr)]. Qed.
Print Assumptions C32_dispatch.

(** The order of registration is that in which the calls of register take effect: it changes only while such a call runs, by that call's target being put at its end. *)
Theorem C32_registration_order n c c' : reachable dispatcher created n c -> step dispatcher c c' ->
  regs c'.1 = regs c.1 \/ exists i f x mem p h, c.2 !! i = Some (Running (Register true f x mem) p) /\ regs c'.1 = regs c.1 ++ [Target h f x].
Proof. exact (order_step n c c'). Qed.
Print Assumptions C32_registration_order.

(** While a call waits for the lock, another call can go on. *)
Theorem C32_no_deadlock n c i : reachable dispatcher created n c -> blocked c i -> exists (j : nat) (o : op) (p : prog disp res), c.2 !! j = Some (Running o p) /\ ~ blocked c j.
Proof. exact (no_deadlock n c i). Qed.
Print Assumptions C32_no_deadlock.

(** When no call is running, the memory in use is that of the targets whose handles are still out, and none after the dispatcher has gone. *)
Theorem C32_memory n c : reachable dispatcher created n c -> (forall j t, c.2 !! j = Some t -> t = Idle) -> elements (nodes c.1) ≡ₚ if given_up (hist c.1) then [] else handles (hist c.1).
Proof. exact (memory n c). Qed.
Print Assumptions C32_memory.

(** Thread 0 registers two targets and dispatches; while the first is being called thread 1 wants to unregister the second and has to wait, and the second is still called. *)
Definition schedule : list (nat * turn disp op) :=
  [(0, Call (Register true 5 50 true)); (0, Go 4); (0, Back); (0, Call (Register true 6 60 true)); (0, Go 4); (0, Back);
   (0, Call (Dispatch true 9)); (0, Go 3); (1, Call (Unregister true (Some 1)))]%nat.
Example ex_waits : exists c, reachable dispatcher created 2 c /\ blocked c 1 /\ in_progress (hist c.1) = [(0, 0)]%nat.
Proof. destruct (plays_reaches dispatcher schedule created 2 (fun c => blocked_b c 1 = true /\ in_progress (hist c.1) = [(0, 0)]%nat)) as (c&Hr&Hb&H); [vm_compute; auto|]. exists c. split_and!; [done|by apply blocked_true|done]. Qed.
Example ex_done : exists c, reachable dispatcher created 2 c /\ c.2 = [Idle; Idle] /\ handles (hist c.1) = [0]%nat /\
  take 2 (hist c.1) = [Returned 1 (Unregister true (Some 1)) (Int 0); Returned 0 (Dispatch true 9) (Int 0)]%nat /\ (invoked 0 (hist c.1)).*1 = [Target 0 5 50; Target 1 6 60].
Proof. apply (plays_reaches dispatcher (schedule ++ [(0, Go 6); (0, Back); (1, Go 4); (1, Back)]%nat)). vm_compute. auto. Qed.
Example ex_freed : exists c, reachable dispatcher created 2 c /\ c.2 = [Idle; Idle] /\ given_up (hist c.1) = true /\ length (handles (hist c.1)) = 1%nat.
Proof. apply (plays_reaches dispatcher (schedule ++ [(0, Go 6); (0, Back); (1, Go 4); (1, Back); (0, Call Free); (0, Go 5); (0, Back)]%nat)). vm_compute. auto. Qed.
