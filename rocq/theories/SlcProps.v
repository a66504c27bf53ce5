(** C58: a sliding window average used by any number of threads n, under every interleaving (src/sliding_window_average_by_count.c). *)
From Coq Require Import SpecFloat.
From Verif Require Import Common Prog Conc SlidingModel SlidingSpec SlidingProofs SlcModel SlcSpec SlcProofs RefsModel SlrProofs ConcSched.
Local Open Scope Z_scope.

(** Every addition takes effect once, between its call and its answer; every average is that of the last wc values added, at a moment between its call and its answer; and nothing undefined happens: no data race, no overflow,
    no use of the window after it has been freed, whenever the references are given up. *)
Theorem C58_histories a l wc w n c : sliding_window_average_by_count_create a l wc = Some w -> wc < 2 ^ 31 -> reachable (counted_window wc) (created_window w) n c ->
  (forall later e before, hist (base c.1) = later ++ e :: before -> event_ok (Z.to_nat wc) e before) /\ (forall i, ~ crashed c i).
Proof.
  intros Hc H31 Hr. destruct (create_rep _ _ _ _ Hc H31) as [Hp Hrep]. assert (0 < Z.to_nat wc)%nat as HW by lia. replace wc with (Z.of_nat (Z.to_nat wc)) in Hr by lia.
  destruct (slr_simulated _ _ _ _ Hr) as [bs Hb]. split; [intros ? ? ?; exact (history _ HW _ _ Hrep _ _ _ _ Hb)|intros i; exact (slr_no_crash _ HW _ Hrep _ _ _ Hr)].
Qed.
Print Assumptions C58_histories.

(** Likewise with the calls that are given NULL instead of the window, which need no reference: here the window is disposed of when no call is running. *)
Theorem C58_histories_with_null a l wc w n c : sliding_window_average_by_count_create a l wc = Some w -> wc < 2 ^ 31 -> reachable (sliding_window wc) (created w) n c ->
  (forall later e before, hist c.1 = later ++ e :: before -> event_ok (Z.to_nat wc) e before) /\ (forall i, ~ crashed c i).
Proof.
  intros Hc H31 Hr. destruct (create_rep _ _ _ _ Hc H31) as [Hp Hrep]. assert (0 < Z.to_nat wc)%nat as HW by lia. replace wc with (Z.of_nat (Z.to_nat wc)) in Hr by lia.
  split; [intros ? ? ?; exact (history _ HW _ _ Hrep _ _ _ _ Hr)|intros i; exact (no_crash _ HW _ _ Hrep _ _ Hr)].
Qed.
Print Assumptions C58_histories_with_null.

(** Once the window is being disposed of, or has been freed, nobody has a reference to it and no addition or reading is running. *)
Theorem C58_not_before_last_reference a l wc w n c : sliding_window_average_by_count_create a l wc = Some w -> wc < 2 ^ 31 -> reachable (counted_window wc) (created_window w) n c ->
  given_up (hist (base c.1)) = true \/ freed c.1 = true -> hands c.1 = 0%nat /\ forall i o p, c.2 !! i <> Some (Running (Use o) p).
Proof.
  intros Hc H31 Hr H. destruct (create_rep _ _ _ _ Hc H31) as [Hp Hrep]. assert (0 < Z.to_nat wc)%nat as HW by lia. replace wc with (Z.of_nat (Z.to_nat wc)) in Hr by lia.
  apply (slr_closed _ HW _ Hrep _ _ Hr). destruct H as [H|H]; [done|exact (slr_freed _ _ _ _ Hr H)].
Qed.
Print Assumptions C58_not_before_last_reference.

(** When no call is running, the window has been freed exactly if all references have been given up, and its lock has been destroyed exactly then. *)
Theorem C58_freed a l wc w n c : sliding_window_average_by_count_create a l wc = Some w -> wc < 2 ^ 31 -> reachable (counted_window wc) (created_window w) n c -> (forall i t, c.2 !! i = Some t -> t = Idle) ->
  (freed c.1 = true <-> hands c.1 = 0%nat) /\ count c.1 = hands c.1 /\ dead (base c.1) = freed c.1.
Proof.
  intros Hc H31 Hr Hi. destruct (create_rep _ _ _ _ Hc H31) as [Hp Hrep]. assert (0 < Z.to_nat wc)%nat as HW by lia. replace wc with (Z.of_nat (Z.to_nat wc)) in Hr by lia.
  destruct (slr_idle _ HW _ Hrep _ _ Hr Hi) as (?&?&?). done.
Qed.
Print Assumptions C58_freed.

(** While a call waits for the lock, another call can go on. *)
Theorem C58_no_deadlock a l wc w n c i : sliding_window_average_by_count_create a l wc = Some w -> wc < 2 ^ 31 -> reachable (counted_window wc) (created_window w) n c -> blocked c i ->
  exists (j : nat) (o : rop op) (p : prog (counted_state slc) (option res)), c.2 !! j = Some (Running o p) /\ ~ blocked c j.
Proof.
  intros Hc H31 Hr Hb. destruct (create_rep _ _ _ _ Hc H31) as [Hp Hrep]. assert (0 < Z.to_nat wc)%nat as HW by lia. replace wc with (Z.of_nat (Z.to_nat wc)) in Hr by lia.
  exact (slr_waits _ HW _ Hrep _ _ _ Hr Hb).
Qed.
Print Assumptions C58_no_deadlock.

(** A window of two. Thread 0 copies its reference, and adds 10; thread 1 begins to add 20 while thread 0, with the other reference, waits to read the average. *)
Definition w2 : sliding := Sliding 2 0 0 0 (S754_zero false) [0; 0].
Example ex_created : sliding_window_average_by_count_create true true 2 = Some w2.
Proof. done. Qed.
Definition two_users : list (nat * turn (counted_state slc) (rop op)) := [(0, Call Copy); (0, Go 1); (0, Back); (0, Call (Use (Add true 10))); (0, Go 20); (0, Back); (1, Call (Use (Add true 20))); (1, Go 8); (0, Call (Use (Get true true)))]%nat.
Example ex_waits : exists c, reachable (counted_window 2) (created_window w2) 2 c /\ blocked c 0.
Proof. destruct (plays_reaches (counted_window 2) two_users (created_window w2) 2 (fun c => blocked_b c 0 = true)) as (c&Hr&Hb); [vm_compute; auto|]. exists c. split; [done|by apply blocked_true]. Qed.
(** The addition ends, and the average of 10 and 20 is read; a third value takes the place of the first. *)
Definition ending : list (nat * turn (counted_state slc) (rop op)) := [(1, Go 12); (1, Back); (0, Go 3); (0, Back)]%nat.
Example ex_average : exists c, reachable (counted_window 2) (created_window w2) 2 c /\ head (hist (base c.1)) = Some (Returned 0 (Get true true) (Avg (Some (average [10; 20])))) /\ added (hist (base c.1)) = [10; 20].
Proof. apply (plays_reaches (counted_window 2) (two_users ++ ending)). vm_compute. auto. Qed.
Definition third : list (nat * turn (counted_state slc) (rop op)) := [(1, Call (Use (Add true 40))); (1, Go 19); (1, Back); (0, Call (Use (Get true true))); (0, Go 3); (0, Back)]%nat.
Example ex_replaced : exists c, reachable (counted_window 2) (created_window w2) 2 c /\ head (hist (base c.1)) = Some (Returned 0 (Get true true) (Avg (Some (average [20; 40])))).
Proof. apply (plays_reaches (counted_window 2) (two_users ++ ending ++ third)). vm_compute. auto. Qed.
(** Both references are given up. *)
Definition drops : list (nat * turn (counted_state slc) (rop op)) := [(0, Call Drop); (0, Go 1); (0, Back); (1, Call Drop); (1, Go 1)]%nat.
Example ex_disposing : exists c, reachable (counted_window 2) (created_window w2) 2 c /\ given_up (hist (base c.1)) = true /\ freed c.1 = false.
Proof. apply (plays_reaches (counted_window 2) (two_users ++ ending ++ drops)). vm_compute. auto. Qed.
Example ex_freed : exists c, reachable (counted_window 2) (created_window w2) 2 c /\ c.2 = [Idle; Idle] /\ freed c.1 = true /\ dead (base c.1) = true.
Proof. apply (plays_reaches (counted_window 2) (two_users ++ ending ++ drops ++ [(1, Go 2); (1, Back)]%nat)). vm_compute. auto. Qed.
(** A call with NULL between two others. *)
Example ex_null : exists c, reachable (sliding_window 2) (created w2) 2 c /\ hist c.1 = [Returned 1 (Add false 7) (Int 1); Acts 0 10; Called 1 (Add false 7); Called 0 (Add true 10)]%nat.
Proof. apply (plays_reaches (sliding_window 2) [(0, Call (Add true 10)); (0, Go 8); (1, Call (Add false 7)); (0, Go 12); (1, Back)]%nat). vm_compute. auto. Qed.
