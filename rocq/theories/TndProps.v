(** C50: the dispatcher of thread notifications with any number of threads n, under every interleaving (src/thread_notifications_dispatcher.c). *)
From Verif Require Import Common Prog Conc TndModel TndSpec ConcSched.
From Verif Require TndProofs2.

(** As long as init and deinit do not overlap each other or get, and no notification overlaps deinit: init succeeds exactly when the module is down and nothing fails, makes a new dispatcher with nothing registered, and
    fails with no effect otherwise; get returns the dispatcher that notifications go to, or NULL when there is none; a notification calls exactly the functions registered with that dispatcher, in the order of
    registration, and does nothing only if the module was down at some time during it; a dispatcher is destroyed only after deinit and when no caller holds a reference; nothing undefined happens, nothing waits. *)
Theorem C50_notifications_partial n c : reachable (tndsys true) initial n c -> (forall later ev before, hist c.1 = later ++ ev :: before -> event_ok ev before) /\ (forall i, ~ crashed c i) /\ (forall i, ~ blocked c i).
Proof. intros Hr. split_and!; [intros ? ? ?; exact (TndProofs2.history _ _ Hr _ _ _)|intros i; exact (TndProofs2.no_crash _ _ Hr i)|intros i; exact (TndProofs2.never_blocked _ _ Hr i)]. Qed.
Print Assumptions C50_notifications_partial.

(** While no call runs, the references to a dispatcher are those that callers hold and, between init and deinit, one more: nothing leaks, also after an init that failed. *)
Theorem C50_no_leak_partial n c p : reachable (tndsys true) initial n c -> (forall i t, c.2 !! i = Some t -> t = Idle) ->
  drefs c.1 p = holding p (hist c.1) + (if decide (current (hist c.1) = Some p) then 1 else 0).
Proof. intros Hr. exact (TndProofs2.references _ _ Hr p). Qed.
Print Assumptions C50_no_leak_partial.

(** A notification that has started when deinit is called uses the dispatcher after it was freed: threads start and end at any time, and nothing waits for the notification. *)
Definition up : list (nat * turn tnd op) := [(0, Call (Init true true)); (0, Go 5); (0, Back)].
Theorem C50_notification_during_deinit_refuted : exists c, reachable (tndsys false) initial 2 c /\ crashed c 1 /\
  hist c.1 = [Freed 0; Down 0; Called 0 Deinit; Called 1 (Notify 2); Returned 0 (Init true true) (Int 0); Up 0 0; Called 0 (Init true true)].
Proof.
  destruct (plays_reaches (tndsys false) (up ++ [(1, Call (Notify 2)); (1, Go 2); (0, Call Deinit); (0, Go 4)]) initial 2
    (fun c => crashed_b c 1 = true /\ hist c.1 = [Freed 0; Down 0; Called 0 Deinit; Called 1 (Notify 2); Returned 0 (Init true true) (Int 0); Up 0 0; Called 0 (Init true true)])) as (c&Hr&H1&H2); [vm_compute; auto|].
  exists c. split_and!; [done|by apply crashed_true|done].
Qed.
Print Assumptions C50_notification_during_deinit_refuted.
(** And so does get. *)
Theorem C50_get_during_deinit_refuted : exists c, reachable (tndsys false) initial 2 c /\ crashed c 1 /\
  hist c.1 = [Freed 0; Down 0; Called 0 Deinit; Called 1 Get; Returned 0 (Init true true) (Int 0); Up 0 0; Called 0 (Init true true)].
Proof.
  destruct (plays_reaches (tndsys false) (up ++ [(1, Call Get); (1, Go 1); (0, Call Deinit); (0, Go 4)]) initial 2
    (fun c => crashed_b c 1 = true /\ hist c.1 = [Freed 0; Down 0; Called 0 Deinit; Called 1 Get; Returned 0 (Init true true) (Int 0); Up 0 0; Called 0 (Init true true)])) as (c&Hr&H1&H2); [vm_compute; auto|].
  exists c. split_and!; [done|by apply crashed_true|done].
Qed.
Print Assumptions C50_get_during_deinit_refuted.

(** Thread 0 initialises; thread 1 gets the dispatcher and registers two functions, unregisters the first, registers a third; a notification calls the ones that are left, in order. *)
Definition use : list (nat * turn tnd op) :=
  up ++ [(1, Call Get); (1, Go 2); (1, Back); (1, Call (Register 0 11 true)); (1, Go 1); (1, Back); (1, Call (Register 0 12 true)); (1, Go 1); (1, Back); (1, Call (Unregister 0 0)); (1, Go 1); (1, Back);
         (1, Call (Register 0 13 true)); (1, Go 1); (1, Back); (0, Call (Notify 2)); (0, Go 3); (0, Back)].
Example ex_notified : exists c, reachable (tndsys true) initial 2 c /\ current (hist c.1) = Some 0 /\ take 3 (hist c.1) = [Returned 0 (Notify 2) Void; Calls 0 0 2 [(1, 12%Z); (2, 13%Z)]; Called 0 (Notify 2)].
Proof. apply (plays_reaches (tndsys true) use). vm_compute. auto 10. Qed.
(** After deinit notifications do nothing; the dispatcher lives until thread 1 drops it; the next init makes a new one. *)
Example ex_kept : exists c, reachable (tndsys true) initial 2 c /\ current (hist c.1) = None /\ holding 0 (hist c.1) = 1 /\ drefs c.1 0 = 1 /\ take 2 (hist c.1) = [Returned 0 (Notify 3) Void; Called 0 (Notify 3)].
Proof. apply (plays_reaches (tndsys true) (use ++ [(0, Call Deinit); (0, Go 6); (0, Back); (0, Call (Notify 3)); (0, Go 1); (0, Back)])). vm_compute. auto 10. Qed.
Example ex_again : exists c, reachable (tndsys true) initial 2 c /\ current (hist c.1) = Some 1 /\ drefs c.1 0 = 0 /\ drefs c.1 1 = 1 /\ regs c.1 1 = [].
Proof. apply (plays_reaches (tndsys true) (use ++ [(0, Call Deinit); (0, Go 6); (0, Back); (1, Call (Drop 0)); (1, Go 1); (1, Back)] ++ up)). vm_compute. auto 10. Qed.
(** A failed init leaves nothing behind. *)
Example ex_failed : exists c, reachable (tndsys true) initial 1 c /\ drefs c.1 0 = 0 /\ cell c.1 = None /\ hist c.1 = [Returned 0 (Init true false) (Int 1); Freed 0; Called 0 (Init true false)].
Proof. apply (plays_reaches (tndsys true) [(0, Call (Init true false)); (0, Go 6); (0, Back)]). vm_compute. auto 10. Qed.
