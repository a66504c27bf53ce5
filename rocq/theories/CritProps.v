(** C28: critical_section gives mutual exclusion without lost wake-ups, with any number of threads n and under every interleaving (src/critical_section.c). *)
From Verif Require Import Common Prog Conc ConcSched CritModel CritProofs.
Local Open Scope Z_scope.

(** At most one thread is inside; nothing undefined happens; enter and leave succeed, except on NULL. *)
Theorem C28_mutual_exclusion n c : reachable crit crit_init n c ->
  (length (inside c.1) <= 1)%nat /\ (forall i, ~ crashed c i) /\ (forall i (o : op) r, (i, o, r) ∈ answers c.1 -> r = if o.2 then 0 else 1).
Proof. exact (mutual_exclusion n c). Qed.
Print Assumptions C28_mutual_exclusion.

(** Threads wait only inside critical_section_enter; and if one waits while the lock is free then another call of critical_section_enter is not waiting (it will look at the lock again) or a call of
    critical_section_leave is about to wake a waiting thread. *)
Theorem C28_no_lost_wake_up n c i : reachable crit crit_init n c -> blocked c i ->
  (exists p, c.2 !! i = Some (Running (true, true) p)) /\
  (word c.1 = 0 ->
   (exists j p, c.2 !! j = Some (Running (true, true) p) /\ ~ blocked c j) \/ (exists j k, c.2 !! j = Some (Running (false, true) (Act wake_by_address_single k)))).
Proof. exact (lost_wake_up n c i). Qed.
Print Assumptions C28_no_lost_wake_up.

(** If the lock is not free, one thread is inside or about to be (its enter has got the lock) or on its way out (its leave has not yet given it back). So no thread waits for ever while
    all others are idle outside: *)
Theorem C28_no_deadlock n c : reachable crit crit_init n c -> inside c.1 = [] -> (exists i, blocked c i) ->
  exists (j : nat) (o : op) (p : prog cs Z), c.2 !! j = Some (Running o p) /\ ~ blocked c j.
Proof. exact (no_deadlock n c). Qed.
Print Assumptions C28_no_deadlock.

(** Three threads: 0 enters; 1 and 2 call enter and wait; 0 has left but for the wake-up. *)
Definition contention : list (nat * turn cs op) :=
  [(0%nat, Call (true, true)); (0%nat, Go 1); (0%nat, Back); (1%nat, Call (true, true)); (1%nat, Go 2); (2%nat, Call (true, true)); (2%nat, Go 2);
   (0%nat, Call (false, true)); (0%nat, Go 1)].
Example ex_contention : exists c, reachable crit crit_init 3 c /\ word c.1 = 0 /\ blocked c 1 /\ blocked c 2.
Proof.
  destruct (plays_reaches crit contention crit_init 3 (fun c => word c.1 = 0 /\ blocked_b c 1 = true /\ blocked_b c 2 = true)) as (c&Hc&H0&H1&H2); [vm_compute; auto|].
  exists c. split_and!; auto using blocked_true.
Qed.
(** Thread 1 is woken (after a reordering of the waiting threads 2 is the first) and gets in. *)
Example ex_handover : exists c, reachable crit crit_init 3 c /\ inside c.1 = [2%nat] /\ blocked c 1.
Proof.
  destruct (plays_reaches crit (contention ++ [(0%nat, Env (set_waiting [2; 1]%nat)); (0%nat, Go 1); (0%nat, Back); (2%nat, Go 2); (2%nat, Back)]) crit_init 3
    (fun c => inside c.1 = [2%nat] /\ blocked_b c 1 = true)) as (c&Hc&H0&H1).
  - vm_compute. split; [right; exists [2; 1]%nat; split; [apply perm_swap|done]|done].
  - exists c. split_and!; auto using blocked_true.
Qed.
