(** C57: the references to the registrations of a cancellation token, with any number of threads n, under every interleaving (src/cancellation_token.c). *)
From Verif Require Import Common Prog Conc CtokModel CtokSpec CtrModel CtrProofs HrefModel CthModel CthProofs ConcSched.

Lemma created_inv b0 m1 m2 h0 : token_created b0 m1 m2 = Some h0 -> exists s0, created_token b0 m1 m2 = Some s0 /\ h0 = unshared s0.
Proof. unfold token_created. destruct (created_token b0 m1 m2) as [s0|]; [|done]. intros [= <-]. eauto. Qed.

(** However users copy and give up references to the token and to its registrations: neither is used after it has been freed, nor freed twice, nor is a count decremented below 0, nor is the dispose function of a registration called
    when the registration is not in the hands of a user; every call, answer and callback is as C31 says, where a registration is disposed of by the call that gives up its last reference. *)
Theorem C57_histories b0 m1 m2 h0 n c : token_created b0 m1 m2 = Some h0 -> reachable token_with_registrations h0 n c ->
  (forall i, ~ crashed c i) /\ (forall later e before, hist (base (inner c.1)) = later ++ e :: before -> event_ok b0 (regs (base (inner c.1))) e before).
Proof.
  intros (s0&Hc&->)%created_inv Hr. split; [intros i; exact (cth_no_crash _ _ _ _ _ Hc _ _ Hr)|]. destruct (cth_simulated _ _ _ _ _ Hc _ Hr) as (bs&Hb&_). exact (history _ _ _ _ _ _ Hc Hb).
Qed.
Print Assumptions C57_histories.

(** While a user has a reference to a registration, or a call is copying one, the registration is in memory, the token will call it, its disposal has not been called, and the token is there. *)
Theorem C57_there_while_referenced b0 m1 m2 h0 n c r : token_created b0 m1 m2 = Some h0 -> reachable token_with_registrations h0 n c ->
  0 < refs_to r c.1 \/ (exists i p, c.2 !! i = Some (Running (HCopy r) p)) ->
  r ∈ handles (hist (base (inner c.1))) /\ is_Some (blocks (base (inner c.1)) !! r) /\ r ∈ tr <$> targets (base (inner c.1)) /\ r ∉ disposed (hist (base (inner c.1))) /\ freed (inner c.1) = false.
Proof.
  intros (s0&Hc&->)%created_inv Hr H. destruct (cth_held _ _ _ _ _ Hc _ r Hr) as (Hh&Hle&Hcp). assert (r ∈ handles (hist (base (inner c.1)))) as Ha.
  { apply Hh. destruct H as [H|(i&p&H)]; [lia|]. specialize (Hcp _ _ H). lia. }
  destruct (cth_simulated _ _ _ _ _ Hc _ Hr) as (bs&Hb&_). destruct (in_hands _ _ _ _ _ _ Hc Hb r Ha) as (?&?&?&?&?). done.
Qed.
Print Assumptions C57_there_while_referenced.

(** Once the disposal of a registration has returned, there is no reference to it. *)
Theorem C57_disposed_of_after_last b0 m1 m2 h0 n c r : token_created b0 m1 m2 = Some h0 -> reachable token_with_registrations h0 n c -> r ∈ disposed (hist (base (inner c.1))) ->
  count_of r c.1 = 0 /\ refs_to r c.1 = 0 /\ forall i p, c.2 !! i <> Some (Running (HCopy r) p).
Proof.
  intros Hc Hr Hd. assert (count_of r c.1 = 0) as H0.
  { apply created_inv in Hc as (s0&Hc&->). destruct (cth_held _ _ _ _ _ Hc _ r Hr) as (Hh&_). destruct (count_of r c.1) as [|k]; [done|]. exfalso.
    destruct (cth_simulated _ _ _ _ _ Hc _ Hr) as (bs&Hb&_). apply (in_hands _ _ _ _ _ _ Hc Hb r); [apply Hh; lia|done]. }
  split; [done|]. split; [|intros i p Hi; apply (C57_there_while_referenced _ _ _ _ _ _ r Hc Hr); eauto].
  apply created_inv in Hc as (s0&Hc&->). destruct (cth_held _ _ _ _ _ Hc _ r Hr) as (_&Hle&_). lia.
Qed.
Print Assumptions C57_disposed_of_after_last.

(** When no call is running: the count of a registration is the number of references to it; the registrations in memory, and those that the token will call, are those to which there are references, each once; the count of the
    token is the number of references of the users and of those registrations, and it has been freed exactly if there are none. *)
Theorem C57_disposed_of_with_last b0 m1 m2 h0 n c : token_created b0 m1 m2 = Some h0 -> reachable token_with_registrations h0 n c -> (forall i t, c.2 !! i = Some t -> t = Idle) ->
  (forall r, count_of r c.1 = refs_to r c.1 /\ (is_Some (blocks (base (inner c.1)) !! r) <-> 0 < refs_to r c.1) /\ (r ∈ tr <$> targets (base (inner c.1)) <-> 0 < refs_to r c.1)) /\
  NoDup (tr <$> targets (base (inner c.1))) /\ count (inner c.1) = hands (inner c.1) + size (blocks (base (inner c.1))) /\ (freed (inner c.1) = true <-> hands (inner c.1) = 0 /\ blocks (base (inner c.1)) = ∅).
Proof.
  intros (s0&Hc&->)%created_inv Hr Hid. destruct (cth_idle _ _ _ _ _ Hc _ Hr Hid) as (H1&bs&Hb&Hbi). destruct (when_gone _ _ _ _ _ _ Hc Hb Hbi) as (G1&G2&G3&G4&G5). cbn [fst] in *.
  assert (size (blocks (base (inner c.1))) = length (handles (hist (base (inner c.1))))) as Hsz. { rewrite <-size_dom. unfold size, set_size. cbn. by rewrite G4. }
  split_and!.
  - intros r. destruct (H1 r) as [E1 E2]. unfold out in E2. split_and!; [done| |].
    + rewrite <-elem_of_dom, <-elem_of_elements, G4. done.
    + rewrite G5. done.
  - rewrite G5, <-G4. apply NoDup_elements.
  - rewrite Hsz. done.
  - rewrite G2, G1, <-Hsz. rewrite <-(map_size_empty_iff (blocks (base (inner c.1)))). lia.
Qed.
Print Assumptions C57_disposed_of_with_last.

(** A call waits only for another one that does not. *)
Theorem C57_no_deadlock b0 m1 m2 h0 n c i : token_created b0 m1 m2 = Some h0 -> reachable token_with_registrations h0 n c -> blocked c i ->
  exists (j : nat) (o : hop CtrModel.rop) (p : prog (held_state shared) (option res)), c.2 !! j = Some (Running o p) /\ ~ blocked c j.
Proof. intros (s0&Hc&->)%created_inv Hr. exact (cth_waits _ _ _ _ _ Hc c i Hr). Qed.
Print Assumptions C57_no_deadlock.

(** Thread 0 registers, copies the reference to the registration and the one to the token; thread 1 gives up one of the references to the registration, which stays. *)
Notation turns := (list (nat * turn (held_state shared) (hop CtrModel.rop))).
Definition start : held_state shared := unshared (Shared (Tok false [] None ∅ 0 [] []) 1 false ∅ 1).
Example ex_start : token_created false true true = Some start.
Proof. done. Qed.
Definition schedule : turns :=
  [(0, Call (HUse (Use (Register true 5%Z 50%Z true true)))); (0, Go 5); (0, Back); (0, Call (HCopy 0)); (0, Go 1); (0, Back); (0, Call (HUse Copy)); (0, Go 1); (0, Back); (1, Call (HDrop 0)); (1, Go 1); (1, Back)].
Example ex_shared : exists c, reachable token_with_registrations start 2 c /\ c.2 = [Idle; Idle] /\ (refs_to 0 c.1, count_of 0 c.1, count (inner c.1), hands (inner c.1)) = (1, 1, 3, 2) /\ tr <$> targets (base (inner c.1)) = [0].
Proof. apply (plays_reaches token_with_registrations schedule). vm_compute. auto 10. Qed.
(** Thread 1 cancels; thread 0 gives up the last reference to the registration while its callback is running, and waits. *)
Definition waiting : turns := [(1, Call (HUse (Use (Cancel true)))); (1, Go 4); (0, Call (HDrop 0)); (0, Go 2)].
Example ex_waits : exists c, reachable token_with_registrations start 2 c /\ blocked c 0 /\ (refs_to 0 c.1, count_of 0 c.1) = (0, 0) /\ is_Some (blocks (base (inner c.1)) !! 0).
Proof.
  destruct (plays_reaches token_with_registrations (schedule ++ waiting) start 2 (fun c => blocked_b c 0 = true /\ (refs_to 0 c.1, count_of 0 c.1) = (0, 0) /\ is_Some (blocks (base (inner c.1)) !! 0))) as (c&Hr&Hb&H); [vm_compute; eauto|].
  exists c. split_and!; [done|by apply blocked_true|apply H..].
Qed.
(** The callback returns, and the registration is disposed of. *)
Example ex_disposed : exists c, reachable token_with_registrations start 2 c /\ c.2 = [Idle; Idle] /\ disposed (hist (base (inner c.1))) = [0] /\ notified (hist (base (inner c.1))) = [0] /\ elements (dom (blocks (base (inner c.1)))) = [].
Proof. apply (plays_reaches token_with_registrations (schedule ++ waiting ++ [(1, Go 3); (1, Back); (0, Go 3); (0, Back)])). vm_compute. auto 10. Qed.
