(** C31: cancellation_token with any number of threads n, under every interleaving (src/cancellation_token.c). *)
From Verif Require Import Common Prog Conc CtokModel CtokSpec CtokProofs ConcSched.
Local Open Scope Z_scope.

(** Every call, answer and callback of every history is as CtokSpec says; no registration is made twice; nothing undefined happens. *)
Theorem C31_token_partial b0 m1 m2 s0 n c : cancellation_token_create b0 m1 m2 = Some s0 -> reachable token s0 n c ->
  (forall later e before, hist c.1 = later ++ e :: before -> event_ok b0 (regs c.1) e before) /\ NoDup (tr <$> regs c.1) /\ (forall i, ~ crashed c i).
Proof. intros Hc Hr. split_and!; [exact (history _ _ _ _ _ _ Hc Hr)|exact (order_nodup _ _ _ _ _ _ Hc Hr)|exact (no_crash _ _ _ _ _ _ Hc Hr)]. Qed.
Print Assumptions C31_token_partial.

(** When cancel has returned 0, every registration whose call had returned before cancel was called, and whose disposal was not called before cancel returned, has been notified exactly once. *)
Theorem C31_exactly_once_partial b0 m1 m2 s0 n c i before later x : cancellation_token_create b0 m1 m2 = Some s0 -> reachable token s0 n c ->
  hist c.1 = later ++ Returned i (Cancel true) (Int 0) :: before -> x ∈ must i before -> x ∈ notified (hist c.1) /\ NoDup (notified (hist c.1)).
Proof. intros Hc Hr. exact (notified_exactly _ _ _ _ _ _ Hc Hr i before later x). Qed.
Print Assumptions C31_exactly_once_partial.

(** What is missing: a registration that is made while the token is being canceled. It is not always called back: register sees that the token is not canceled, the token is canceled and its targets are
    called, and only then is the new target put into the list. Registration and cancel both succeed, the registration is not disposed of, no call is running, and the callback is never called. *)
Theorem C31_exactly_once_refuted : exists s0 c x, cancellation_token_create false true true = Some s0 /\ reachable token s0 2 c /\ c.2 = [Idle; Idle] /\
  handles (hist c.1) = [x] /\ wins (hist c.1) = 1%nat /\ notified (hist c.1) = [] /\ made 0 (hist c.1) = [] /\ made 1 (hist c.1) = [].
Proof.
  destruct (plays_reaches token [(0, Call (Register true 5 50 true true)); (0, Go 1); (1, Call (Cancel true)); (1, Go 4); (1, Back); (0, Go 3); (0, Back)]%nat (Tok false [] None ∅ 0 [] []) 2
    (fun c => c.2 = [Idle; Idle] /\ handles (hist c.1) = [0]%nat /\ wins (hist c.1) = 1%nat /\ notified (hist c.1) = [] /\ made 0 (hist c.1) = [] /\ made 1 (hist c.1) = [])) as (c&Hr&H); [vm_compute; auto 10|].
  exists (Tok false [] None ∅ 0 [] []), c, 0%nat. split_and!; try done; naive_solver.
Qed.
Print Assumptions C31_exactly_once_refuted.

(** The order of registration is that in which the calls of register take effect; the token stays canceled. *)
Theorem C31_registration_order b0 m1 m2 s0 n c c' : cancellation_token_create b0 m1 m2 = Some s0 -> reachable token s0 n c -> step token c c' ->
  (canceled c.1 = true -> canceled c'.1 = true) /\
  (regs c'.1 = regs c.1 \/ exists i f x m1 m2 p h r, c.2 !! i = Some (Running (Register true f x m1 m2) p) /\ regs c'.1 = regs c.1 ++ [Target h r f x]).
Proof. intros Hc Hr. exact (step_ok _ _ _ _ _ _ Hc Hr c'). Qed.
Print Assumptions C31_registration_order.
Theorem C31_no_deadlock b0 m1 m2 s0 n c i : cancellation_token_create b0 m1 m2 = Some s0 -> reachable token s0 n c -> blocked c i ->
  exists (j : nat) (o : op) (p : prog tok res), c.2 !! j = Some (Running o p) /\ ~ blocked c j.
Proof. intros Hc Hr. exact (no_deadlock _ _ _ _ _ _ Hc Hr i). Qed.
Print Assumptions C31_no_deadlock.
(** When no call is running, the registrations and targets in memory are those that their users hold. *)
Theorem C31_memory b0 m1 m2 s0 n c : cancellation_token_create b0 m1 m2 = Some s0 -> reachable token s0 n c -> (forall j t, c.2 !! j = Some t -> t = Idle) ->
  elements (dom (blocks c.1)) ≡ₚ handles (hist c.1) /\ tr <$> targets c.1 ≡ₚ handles (hist c.1).
Proof. intros Hc Hr. exact (memory _ _ _ _ _ _ Hc Hr). Qed.
Print Assumptions C31_memory.
(** A token is created whenever there is memory, with nothing registered, canceled if so asked. *)
Theorem C31_create b0 m1 m2 : match cancellation_token_create b0 m1 m2 with
  | Some s => m1 = true /\ m2 = true /\ canceled s = b0 /\ targets s = [] /\ blocks s = ∅ /\ hist s = []
  | None => m1 = false \/ m2 = false
  end.
Proof. by destruct b0, m1, m2; cbn; auto 10. Qed.
Print Assumptions C31_create.

(** Two registrations, the second is disposed of while the token is being canceled; cancel is called again; a registration after that is called at once. *)
Definition schedule : list (nat * turn tok op) :=
  [(0, Call (Register true 5 50 true true)); (0, Go 4); (0, Back); (0, Call (Register true 6 60 true true)); (0, Go 4); (0, Back);
   (0, Call (Cancel true)); (0, Go 4); (1, Call (Dispose 2)); (1, Go 1)]%nat.
Example ex_waits : exists c, reachable token (Tok false [] None ∅ 0 [] []) 2 c /\ blocked c 1 /\ in_progress (hist c.1) = [(0, Some 0)]%nat.
Proof. destruct (plays_reaches token schedule (Tok false [] None ∅ 0 [] []) 2 (fun c => blocked_b c 1 = true /\ in_progress (hist c.1) = [(0, Some 0)]%nat)) as (c&Hr&Hb&H); [vm_compute; auto|]. exists c. split_and!; [done|by apply blocked_true|done]. Qed.
Example ex_done : exists c, reachable token (Tok false [] None ∅ 0 [] []) 2 c /\ c.2 = [Idle; Idle] /\ handles (hist c.1) = [0]%nat /\ notified (hist c.1) = [2; 0]%nat /\ wins (hist c.1) = 1%nat /\
  made 1 (hist c.1) = [(None, 7, 70)] /\ hist c.1 !! 3%nat = Some (Called 1 (Register true 7 70 true true)) /\ hist c.1 !! 4%nat = Some (Returned 1 (Cancel true) (Int 1)).
Proof.
  apply (plays_reaches token (schedule ++ [(0, Go 6); (0, Back); (1, Go 2); (1, Back); (1, Call (Cancel true)); (1, Go 1); (1, Back); (1, Call (Register true 7 70 true true)); (1, Go 3); (1, Back)]%nat)).
  vm_compute. auto 10.
Qed.
