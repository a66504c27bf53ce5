(** C41: WATCHDOG with any number of threads n, under every interleaving of its calls with the expiries of its timer (src/watchdog.c). *)
From Verif Require Import Common Prog Conc WdogModel WdogSpec WdogProofs ConcSched.

(** In every history the callback is called only while the watchdog is on, once per expiry of the timer and never for an expiry from before the timer was last cancelled, it does not run any more when reset or stop
    has switched the watchdog off, reset cancels and arms the timer once, stop cancels it, and nothing happens after stop has returned, as WdogSpec says; nothing undefined happens (no use of freed memory). *)
Theorem C41_callback n c : reachable watchdog initial n c -> (forall later ev before, hist c.1 = later ++ ev :: before -> event_ok ev before) /\ (forall i, ~ crashed c i).
Proof. intros Hr. split; [intros ? ? ?; exact (history _ _ Hr _ _ _)|intros i; exact (no_crash _ _ Hr i)]. Qed.
Print Assumptions C41_callback.

(** While a call waits, a thread of the pool that deals with an expiry can go on. *)
Theorem C41_no_deadlock n c i : reachable watchdog initial n c -> blocked c i -> exists (j : nat) (p : prog wdog res), c.2 !! j = Some (Running Expired p) /\ ~ blocked c j.
Proof. intros Hr. exact (no_deadlock _ _ Hr i). Qed.
Print Assumptions C41_no_deadlock.

(** While no call of start, reset or stop runs: a watchdog that has been started and not stopped is on and its timer has been armed since it was last cancelled, however many calls of reset have raced;
    one that has been stopped, or could not be started, is gone, with its timer, and nothing of it runs. *)
Theorem C41_between_calls n c : reachable watchdog initial n c -> users (hist c.1) = [] ->
  (usable c.1 = true -> is_open (hist c.1) = true /\ cancelled (hist c.1) = false /\ mem c.1 = true /\ smx c.1 = true /\ tim c.1 = true /\ tset c.1 = true) /\
  (stopped (hist c.1) = true -> armed c.1 = false /\ pend c.1 = 0 /\ active (hist c.1) = [] /\ mem c.1 = false /\ smx c.1 = false /\ tim c.1 = false /\ forall j p, c.2 !! j <> Some (Running Expired p)).
Proof. intros Hr. exact (between _ _ Hr). Qed.
Print Assumptions C41_between_calls.

(** Thread 0 starts the watchdog; the timer expires; thread 1 runs the callback; thread 0 resets meanwhile and waits for it. *)
Definition start : list (nat * turn wdog op) := [(0, Call (Start true true true true)); (0, Go 6); (0, Back)]%nat.
Definition expire (s : wdog) : wdog := add_ev Expires (set_tim (tim s) false (S (pend s)) (busy s) s).
Definition fires : list (nat * turn wdog op) := start ++ [(0, Env expire); (1, Call Expired); (1, Go 2); (0, Call (Reset true)); (0, Go 1)].
Definition resets : list (nat * turn wdog op) := fires ++ [(1, Go 2); (1, Back); (0, Go 6); (0, Back)].
Example ex_waits : exists c, reachable watchdog initial 3 c /\ blocked c 0 /\ active (hist c.1) = [1].
Proof. destruct (plays_reaches watchdog fires initial 3 (fun c => blocked_b c 0 = true /\ active (hist c.1) = [1])) as (c&Hr&H1&H2); [vm_compute; auto|]. exists c. split_and!; [done|by apply blocked_true|done]. Qed.
Example ex_resets : exists c, reachable watchdog initial 3 c /\ users (hist c.1) = [] /\ usable c.1 = true /\ armed c.1 = true /\
  hist c.1 = [Returned 0 (Reset true) Void; Arms 0; Opens 0; Cancels 0; Closes 0; Returned 1 Expired Void; Ends 1; Called 0 (Reset true); Begins 1; Called 1 Expired; Expires;
              Returned 0 (Start true true true true) (Handle true); Arms 0; Opens 0; Called 0 (Start true true true true)].
Proof. apply (plays_reaches watchdog resets). vm_compute. auto 10. Qed.
(** Threads 0 and 2 reset at the same time: both close and open, and each of the two restarts the timer. *)
Example ex_race : exists c, reachable watchdog initial 3 c /\ users (hist c.1) = [] /\ cancelled (hist c.1) = false /\ omap (fun e => match e with Arms i => Some i | _ => None end) (hist c.1) = [2; 0; 0].
Proof. apply (plays_reaches watchdog (start ++ [(0, Call (Reset true)); (0, Go 6); (2, Call (Reset true)); (2, Go 3); (0, Go 1); (0, Back); (2, Go 4); (2, Back)])). vm_compute. auto 10. Qed.
Example ex_stopped : exists c, reachable watchdog initial 3 c /\ users (hist c.1) = [] /\ stopped (hist c.1) = true /\ omap (fun e => match e with Begins i => Some i | _ => None end) (hist c.1) = [1].
Proof. apply (plays_reaches watchdog (resets ++ [(0, Env expire); (0, Call (Stop true)); (0, Go 6); (0, Back)])). vm_compute. auto 10. Qed.
Example ex_failed : exists c, reachable watchdog initial 3 c /\ users (hist c.1) = [] /\ stopped (hist c.1) = true /\ length (hist c.1) = 3.
Proof. apply (plays_reaches watchdog ([(0, Call (Start true true true false)); (0, Go 6); (0, Back)])). vm_compute. auto 10. Qed.
