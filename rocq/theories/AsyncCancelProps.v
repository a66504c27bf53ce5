(** C30: async_op_cancel invokes the cancel function at most once, with any number of threads n and under every interleaving (src/async_op.c). *)
From Verif Require Import Common Prog Conc ConcSched AsyncCancelModel AsyncCancelProofs.
Local Open Scope Z_scope.

Theorem C30_cancel_at_most_once context has_cancel n c : reachable (cancels context has_cancel) created_op n c ->
  (length (cancelled c.1) <= 1)%nat /\ (has_cancel = false -> cancelled c.1 = []) /\ (forall x, x ∈ cancelled c.1 -> x = context) /\ (forall i, ~ crashed c i) /\ (forall i, ~ blocked c i) /\
  (forall i o r, (i, o, r) ∈ results c.1 -> r = if (o : bool) then ASYNC_CANCELLING else ASYNC_INVALID_ARG).
Proof. exact (cancel_once context has_cancel n c). Qed.
Print Assumptions C30_cancel_at_most_once.

(** Exactly once, as soon as one call has been made and those that were made have returned. *)
Theorem C30_cancel_exactly_once context n c i r : reachable (cancels context true) created_op n c ->
  (i, true, r) ∈ results c.1 -> (forall j t, c.2 !! j = Some t -> t = Idle) -> cancelled c.1 = [context].
Proof. exact (cancel_exactly_once context true n c i r eq_refl). Qed.
Print Assumptions C30_cancel_exactly_once.

(** Two threads cancel at the same time; the second returns first, before the cancel function is called. *)
Example ex_two_cancel : exists c, reachable (cancels 7 true) created_op 2 c /\ cancelled c.1 = [] /\ results c.1 = [(1%nat, true, ASYNC_CANCELLING)].
Proof. apply (plays_reaches (cancels 7 true) [(0%nat, Call true); (1%nat, Call true); (0%nat, Go 1); (1%nat, Go 1); (1%nat, Back)]). vm_compute. auto. Qed.
Example ex_both_done : exists c, reachable (cancels 7 true) created_op 2 c /\ (0%nat, true, ASYNC_CANCELLING) ∈ results c.1 /\ c.2 = [Idle; Idle] /\ cancelled c.1 = [7].
Proof.
  destruct (plays_reaches (cancels 7 true) [(0%nat, Call true); (1%nat, Call true); (0%nat, Go 1); (1%nat, Go 1); (1%nat, Back); (0%nat, Go 1); (0%nat, Back)] created_op 2
    (fun c => results c.1 = [(0%nat, true, ASYNC_CANCELLING); (1%nat, true, ASYNC_CANCELLING)] /\ c.2 = [Idle; Idle] /\ cancelled c.1 = [7])) as (c&H1&H2&H3&H4); [vm_compute; auto|].
  exists c. split_and!; [done| |done..]. rewrite H2. by left.
Qed.
