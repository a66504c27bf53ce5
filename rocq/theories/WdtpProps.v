(** C42: the threadpool of the watchdogs with any number of threads n, under every interleaving (src/watchdog_threadpool.c). *)
From Verif Require Import Common Prog Conc WdtpModel WdtpSpec WdtpProofs ConcSched.

(** As long as the callers do not let get overlap deinit: at most one init succeeds until deinit, init fails only when something cannot be created or when there is a threadpool already or another init or deinit runs,
    get returns the one threadpool that there is, or NULL when there was none, and a threadpool is destroyed only when deinit has given it up and no caller holds a reference to it; nothing undefined happens, nothing waits. *)
Theorem C42_one_threadpool_partial n c : reachable (pools true) initial n c -> (forall later ev before, hist c.1 = later ++ ev :: before -> event_ok ev before) /\ (forall i, ~ crashed c i) /\ (forall i, ~ blocked c i).
Proof. intros Hr. split_and!; [intros ? ? ?; exact (history _ _ Hr _ _ _)|intros i; exact (no_crash _ _ Hr i)|intros i; exact (never_blocked _ _ Hr i)]. Qed.
Print Assumptions C42_one_threadpool_partial.

(** While no call runs, the references to a threadpool are exactly those that the callers hold and, until deinit, one more; its execution engine lives as long as it does: nothing leaks, also after a failed init. *)
Theorem C42_no_leak_partial n c p : reachable (pools true) initial n c -> (forall i t, c.2 !! i = Some t -> t = Idle) ->
  prefs c.1 p = holding p (hist c.1) + (if decide (current (hist c.1) = Some p) then 1 else 0) /\ erefs c.1 p = (match prefs c.1 p with O => 0 | _ => 1 end).
Proof. intros Hr. exact (references _ _ Hr p). Qed.
Print Assumptions C42_no_leak_partial.

(** Without that, get is not safe: it looks at the state, then reads the handle, then counts its reference; deinit in between destroys the threadpool, and get uses it after it was freed. *)
Definition create : list (nat * turn wdtp op) := [(0, Call (Init true true)); (0, Go 6); (0, Back)].
Theorem C42_get_alive_refuted : exists c, reachable (pools false) initial 2 c /\ crashed c 1 /\ hist c.1 = [Freed 0; Down 0; Called 0 Deinit; Called 1 Get; Returned 0 (Init true true) (Int 0); Up 0 0; Called 0 (Init true true)].
Proof.
  destruct (plays_reaches (pools false) (create ++ [(1, Call Get); (1, Go 2); (0, Call Deinit); (0, Go 3)]) initial 2
    (fun c => crashed_b c 1 = true /\ hist c.1 = [Freed 0; Down 0; Called 0 Deinit; Called 1 Get; Returned 0 (Init true true) (Int 0); Up 0 0; Called 0 (Init true true)])) as (c&Hr&H1&H2); [vm_compute; auto|].
  exists c. split_and!; [done|by apply crashed_true|done].
Qed.
Print Assumptions C42_get_alive_refuted.

(** Thread 0 makes the threadpool while thread 1 is turned away; thread 1 gets it and keeps it beyond deinit, until it drops it. *)
Definition both : list (nat * turn wdtp op) := [(0, Call (Init true true)); (0, Go 2); (1, Call (Init true true)); (1, Go 1); (1, Back); (0, Go 4); (0, Back); (1, Call Get); (1, Go 3); (1, Back)].
Example ex_get : exists c, reachable (pools true) initial 2 c /\ current (hist c.1) = Some 0 /\ holding 0 (hist c.1) = 1 /\ prefs c.1 0 = 2 /\
  hist c.1 = [Returned 1 Get (Pool (Some 0)); Called 1 Get; Returned 0 (Init true true) (Int 0); Up 0 0; Returned 1 (Init true true) (Int 1); Called 1 (Init true true); Called 0 (Init true true)].
Proof. apply (plays_reaches (pools true) both). vm_compute. auto 10. Qed.
Example ex_kept : exists c, reachable (pools true) initial 2 c /\ current (hist c.1) = None /\ holding 0 (hist c.1) = 1 /\ prefs c.1 0 = 1 /\ erefs c.1 0 = 1.
Proof. apply (plays_reaches (pools true) (both ++ [(0, Call Deinit); (0, Go 5); (0, Back)])). vm_compute. auto 10. Qed.
Example ex_freed : exists c, reachable (pools true) initial 2 c /\ prefs c.1 0 = 0 /\ erefs c.1 0 = 0 /\ take 3 (hist c.1) = [Returned 1 (Drop 0) Void; Freed 0; Called 1 (Drop 0)].
Proof. apply (plays_reaches (pools true) (both ++ [(0, Call Deinit); (0, Go 5); (0, Back); (1, Call (Drop 0)); (1, Go 1); (1, Back)])). vm_compute. auto 10. Qed.
(** A failed init leaves nothing behind, and a later one makes the next threadpool. *)
Example ex_failed : exists c, reachable (pools true) initial 2 c /\ erefs c.1 0 = 0 /\ prefs c.1 0 = 0 /\ current (hist c.1) = Some 1.
Proof. apply (plays_reaches (pools true) ([(1, Call (Init true false)); (1, Go 4); (1, Back)] ++ create)). vm_compute. auto 10. Qed.
