(** C44: the synchronous wrapper. *)
From Verif Require Import Common Prog Conc ConcLists ConcSched SwrModel SwrSpec SwrProofs.
Local Open Scope Z_scope.

(** Whatever the asynchronous function and the copy functions answer, whenever and in whatever thread the callback runs: if waiting never fails, then the callback never uses the context after the wrapper has returned (that would be undefined), the wrapper
    answers OK only after the callback has stored all out arguments, COPY_ARG_ERROR only after a copy has failed and all copies were freed, each once, and the rest as the specification says. *)
Theorem C44_events_ok_partial C n c : may_fail C = false -> reachable (sync_wrapper C) start n c -> (forall i, ~ crashed c i) /\ forall after e before, hist c.1 = after ++ e :: before -> event_ok C e before.
Proof.
  intros HC Hr. pose proof (reach_inv C HC n c Hr) as Hok. split.
  - intros i. by eapply ok_no_crash.
  - destruct Hok as (ls & _ & HI & _). pose proof (i_ok _ _ _ HI) as H. revert H. generalize (hist c.1). intros h H after e before ->. induction after as [|e' after IH]; destruct H; auto.
Qed.
Print Assumptions C44_events_ok_partial.

(** The only thread that ever waits is that of the wrapper, and it waits only while the callback is to be called, or running. *)
Theorem C44_waits_for_callback C n c i : may_fail C = false -> reachable (sync_wrapper C) start n c -> blocked c i ->
  (exists h r ps p, c.2 !! i = Some (Running (Sync h r ps) p)) /\ (inflight c.1 = 1%nat \/ exists j vals p, c.2 !! j = Some (Running (Callback vals) p)).
Proof.
  intros HC Hr Hb. destruct (reach_inv C HC n c Hr) as (ls & Hl & HI & Ht). destruct (ok_blocked _ _ _ _ _ _ _ _ Hl HI Ht Hb) as (l & Hi & -> & Hf).
  assert (forall j lj, ls !! j = Some lj -> exists t, c.2 !! j = Some t /\ thr_ok (sync_wrapper C) (Inv C) (.= Out) blk shape j t lj) as Hthr.
  { intros j lj Hj. destruct (lookup_lt_is_Some_2 c.2 j) as [t Hj']; [rewrite <-Hl; by eapply lookup_lt_Some|]. eauto. }
  split.
  - destruct (Hthr _ _ Hi) as ([|o p]&Hj&Hok); [done|]. apply ok_shape in Hok. destruct o; [eauto 10|done].
  - destruct (i_loc _ _ _ HI _ _ Hi) as (_&[(e&Hfr&Hn)|(e&Hfr&_)]); [|by destruct (Hf (Some e))].
    destruct (decide (inflight c.1 = 1%nat)) as [|Hne]; [by left|]. right. destruct (cnt_ex cbr ls) as (j&lj&Hj&Hbj); [lia|]. destruct (Hthr _ _ Hj) as ([|o p]&Hj'&Hok); [cbn in Hok; by subst lj|].
    apply ok_shape in Hok. destruct o as [h r ps|vals]; [by destruct lj|eauto].
Qed.
Print Assumptions C44_waits_for_callback.

(** If waiting may fail, the wrapper returns while the callback is still to come, which then uses the context that is gone. *)
Definition C1 := Config 0 [true; false; true] false.
Definition C2 := Config 0 [true; false; true] true.
Definition ch (v : Z) : nat * turn st op := (0%nat, Env (fun s => St (frame s) (inflight s) (started s) v (hist s))).
Theorem C44_wait_may_fail_refuted : exists c i, reachable (sync_wrapper C2) start 2 c /\ answers (hist c.1) = [OTHER_ERROR] /\ crashed c i.
Proof.
  destruct (plays_reaches (sync_wrapper C2) [(0, Call (Sync true true [true; true; true])); (0, Go 2); ch 1; (0, Go 1); (0, Back); (1, Call (Callback [5%Z; 6%Z; 7%Z]))]%nat start 2 (fun c => answers (hist c.1) = [OTHER_ERROR] /\ crashed_b c 1 = true)) as (c & Hr & Ha & Hc).
  { vm_compute. eauto 10. }
  exists c, 1%nat. split; [done|]. split; [done|]. by apply crashed_true.
Qed.
Print Assumptions C44_wait_may_fail_refuted.
(** The callback may wake by the address of the context after the wrapper has returned (the memory at this address is not accessed then). *)
Theorem C44_wakes_after_return : exists c i o r before, reachable (sync_wrapper C1) start 2 c /\ hist c.1 = Woke :: Returned i o (Answer r (Some 0)) :: before.
Proof.
  destruct (plays_reaches (sync_wrapper C1) [(0, Call (Sync true true [true; true; true])); (0, Go 2); (1, Call (Callback [5%Z; 6%Z; 7%Z])); (1, Go 9); (0, Go 2); (0, Back); (1, Go 1)]%nat start 2 (fun c => exists i o r before, hist c.1 = Woke :: Returned i o (Answer r (Some 0)) :: before)) as (c & Hr & i & o & r & before & H).
  { vm_compute. eauto 10. }
  exists c, i, o, r, before. done.
Qed.
Print Assumptions C44_wakes_after_return.

Example ex_ok : exists c, reachable (sync_wrapper C1) start 2 c /\ answers (hist c.1) = [OK] /\ map (fun k => holds k (hist c.1)) [0; 1; 2]%nat = [Some 5; Some 6; Some 7] /\ live (hist c.1) = [0; 2]%nat.
Proof. apply (plays_reaches (sync_wrapper C1) [(0, Call (Sync true true [true; true; true])); (0, Go 2); (1, Call (Callback [5%Z; 6%Z; 7%Z])); (1, Go 10); (0, Go 2); (0, Back); (1, Back)]%nat). vm_compute. eauto 10. Qed.
Example ex_copy_error : exists c, reachable (sync_wrapper C1) start 2 c /\ answers (hist c.1) = [COPY_ARG_ERROR] /\ live (hist c.1) = [] /\ NotCopied 2 ∈ hist c.1 /\ Freed 0 ∈ hist c.1.
Proof.
  destruct (plays_reaches (sync_wrapper C1) [(0, Call (Sync true true [true; true; true])); (0, Go 2); (1, Call (Callback [5%Z; 6%Z; 7%Z])); (1, Go 4); ch 1; (1, Go 8); (0, Go 2); (0, Back)]%nat start 2
    (fun c => answers (hist c.1) = [COPY_ARG_ERROR] /\ live (hist c.1) = [] /\ existsb (fun e => match e with NotCopied 2 => true | _ => false end) (hist c.1) = true /\ existsb (fun e => match e with Freed 0 => true | _ => false end) (hist c.1) = true)) as (c & Hr & H1 & H2 & H3 & H4).
  { vm_compute. eauto 10. }
  exists c. split_and!; try done.
  - apply existsb_exists in H3 as (e & He & H). destruct e as [| | | | |[|[|[]]]| |]; try done. by apply elem_of_list_In.
  - apply existsb_exists in H4 as (e & He & H). destruct e as [| | | | | |[]|]; try done. by apply elem_of_list_In.
Qed.
Example ex_waits : exists c, reachable (sync_wrapper C1) start 2 c /\ blocked c 0 /\ inflight c.1 = 1%nat.
Proof. destruct (plays_reaches (sync_wrapper C1) [(0, Call (Sync true true [true; true; true])); (0, Go 2)]%nat start 2 (fun c => blocked_b c 0 = true /\ inflight c.1 = 1%nat)) as (c&Hr&H1&H2); [vm_compute; eauto|]. exists c. split_and!; [done|by apply blocked_true|done]. Qed.
