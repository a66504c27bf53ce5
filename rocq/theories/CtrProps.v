(** C54: the reference count of cancellation_token with any number of threads n, under every interleaving (src/cancellation_token.c). *)
From Verif Require Import Common Prog Conc CtokModel CtokSpec CtrModel CtrProofs ConcSched.

(** The token is neither used after it has been freed, nor freed twice, nor is its count decremented below 0, nor a registration used after it has been freed; every call, answer and callback is as C31 says. *)
Theorem C54_no_use_after_free b0 m1 m2 s0 n c : created_token b0 m1 m2 = Some s0 -> reachable counted s0 n c ->
  (forall i, ~ crashed c i) /\ (forall later e before, hist (base c.1) = later ++ e :: before -> event_ok b0 (regs (base c.1)) e before).
Proof. intros Hc Hr. split; [exact (no_crash _ _ _ _ _ _ Hc Hr)|exact (history _ _ _ _ _ _ Hc Hr)]. Qed.
Print Assumptions C54_no_use_after_free.

(** When the token has been freed, no user has a reference to it, no registration is in the hands of a user or holds a reference, nothing is registered, no dispatch is running, and no call that was given the token is running:
    as long as a user has a reference or a registration, the token is there. *)
Theorem C54_freed_only_when_unused b0 m1 m2 s0 n c : created_token b0 m1 m2 = Some s0 -> reachable counted s0 n c -> freed c.1 = true ->
  hands c.1 = 0 /\ fields c.1 = ∅ /\ handles (hist (base c.1)) = [] /\ targets (base c.1) = [] /\ reading (base c.1) = None /\ forall j o p, c.2 !! j = Some (Running (Use o) p) -> lent (Use o) = 0.
Proof. intros Hc Hr. exact (when_freed _ _ _ _ _ _ Hc Hr). Qed.
Print Assumptions C54_freed_only_when_unused.

(** When no call is running: the count is the number of references of the users and of the registrations that they hold; the token has been freed if and only if there are none; the registrations in memory, those that hold a
    reference to the token and those that the token will call are those that the users hold. *)
Theorem C54_freed_when_unused b0 m1 m2 s0 n c : created_token b0 m1 m2 = Some s0 -> reachable counted s0 n c -> (forall j t, c.2 !! j = Some t -> t = Idle) ->
  count c.1 = hands c.1 + length (handles (hist (base c.1))) /\ (freed c.1 = true <-> count c.1 = 0) /\ elements (fields c.1) ≡ₚ handles (hist (base c.1)) /\
  elements (dom (blocks (base c.1))) ≡ₚ handles (hist (base c.1)) /\ tr <$> targets (base c.1) ≡ₚ handles (hist (base c.1)).
Proof. intros Hc Hr. exact (when_gone _ _ _ _ _ _ Hc Hr). Qed.
Print Assumptions C54_freed_when_unused.

(** A call waits only for another one that does not. *)
Theorem C54_no_deadlock b0 m1 m2 s0 n c i : created_token b0 m1 m2 = Some s0 -> reachable counted s0 n c -> blocked c i ->
  exists (j : nat) (o : rop) (p : prog shared res), c.2 !! j = Some (Running o p) /\ ~ blocked c j.
Proof. intros Hc Hr. exact (no_deadlock _ _ _ _ _ _ Hc Hr i). Qed.
Print Assumptions C54_no_deadlock.

(** A token is registered with; its users drop their only reference while its cancellation by another thread, which has been lent a copy, waits; the registration then holds the last reference. *)
Definition start : shared := Shared (Tok false [] None ∅ 0 [] []) 1 false ∅ 1.
Example ex_start : created_token false true true = Some start.
Proof. done. Qed.
Definition schedule : list (nat * turn shared rop) :=
  [(0, Call (Use (Register true 5%Z 50%Z true true))); (0, Go 5); (0, Back); (0, Call Copy); (0, Go 1); (0, Back); (1, Call (Use (Cancel true))); (1, Go 3); (0, Call Drop); (0, Go 1); (0, Back);
   (0, Call (Use (Dispose 0))); (0, Go 1)].
Example ex_waits : exists c, reachable counted start 2 c /\ blocked c 0 /\ count c.1 = 2 /\ hands c.1 = 0 /\ freed c.1 = false.
Proof. destruct (plays_reaches counted schedule start 2 (fun c => blocked_b c 0 = true /\ count c.1 = 2 /\ hands c.1 = 0 /\ freed c.1 = false)) as (c&Hr&Hb&H); [vm_compute; auto|]. exists c. split_and!; [done|by apply blocked_true|naive_solver..]. Qed.
Definition schedule2 : list (nat * turn shared rop) := schedule ++ [(1, Go 4); (1, Back); (1, Call Drop); (1, Go 1); (1, Back)].
Example ex_last : exists c, reachable counted start 2 c /\ count c.1 = 1 /\ hands c.1 = 0 /\ elements (fields c.1) = [0] /\ freed c.1 = false.
Proof. apply (plays_reaches counted schedule2). vm_compute. auto 10. Qed.
Example ex_done : exists c, reachable counted start 2 c /\ c.2 = [Idle; Idle] /\ count c.1 = 0 /\ freed c.1 = true /\ elements (dom (blocks (base c.1))) = [] /\ notified (hist (base c.1)) = [0].
Proof. apply (plays_reaches counted (schedule2 ++ [(0, Go 4); (0, Back)])). vm_compute. auto 10. Qed.
