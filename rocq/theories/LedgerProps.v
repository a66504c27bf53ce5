(** C59: creating and destroying channels, sliding windows, worker threads, cancellation tokens and arrays (TARRAY), when any step of a creation may fail. *)
From Verif Require Import Common LedgerModel LedgerSpec LedgerProofs.
Local Open Scope Z_scope.

(** After any history of creations, successful or not, and destructions: what exists is what the objects there own, and the references held are those that they hold. So a creation that fails leaves nothing behind. *)
Theorem C59_nothing_else_exists refs0 s l : history refs0 s l ->
  (forall k, existing k s = total (fun w => owns w k) l) /\ (forall r, refs s r = refs0 r + total (fun w => holds w r) l)%nat.
Proof. intros H. split; [intros k; exact (existing_ok _ _ _ _ H)|exact (proj1 (proj2 (history_inv _ _ _ H)))]. Qed.
Print Assumptions C59_nothing_else_exists.

(** Creation succeeds exactly if the arguments are valid and every step succeeds; otherwise it answers NULL. *)
Theorem C59_create refs0 s l w b1 b2 b3 : history refs0 s l -> exists h s', create w b1 b2 b3 s = Done (h, s') /\ (is_Some h <-> succeeds w b1 b2 b3 = true).
Proof.
  intros H. pose proof (create_ok s w b1 b2 b3 (proj1 (history_inv _ _ _ H))) as Hc. destruct (succeeds w b1 b2 b3).
  - destruct Hc as (h&s'&Hc&_). exists (Some h), s'. split; [done|]. split; [done|by eexists].
  - destruct Hc as (s'&Hc&_). exists None, s'. split; [done|]. split; [by intros []|done].
Qed.
Print Assumptions C59_create.

(** An object that is there can be destroyed: nothing is released twice, and nothing that does not exist. *)
Theorem C59_destroy refs0 s l1 h w l2 : history refs0 s (l1 ++ (h, w) :: l2) -> exists s', destroy w h s = Done (tt, s').
Proof. intros H. destruct (inv_destroy _ _ _ _ _ _ (history_inv _ _ _ H)) as (s'&Hd&_). eauto. Qed.
Print Assumptions C59_destroy.

(** Two channels share a threadpool (7); a third creation fails at its last step, a token's at the dispatcher's lock; a worker thread on the engine 9 stays when the first channel is disposed of. *)
Example ex_history : exists s h1 h2, history (fun _ => 1%nat) s [(h1, TpWorker (Some 9%nat) true); (h2, Channel None (Some 7%nat))] /\
  (existing Mem s, existing Sm s, existing Lock s) = (2, 2, 1)%nat /\ (refs s 7, refs s 8, refs s 9) = (2, 1, 2)%nat.
Proof.
  set (after := fun A (m : L A) s => match m s with Done (_, s') => s' | _ => s end). set (s0 := Ledger 0 ∅ ∅ (fun _ => 1%nat)).
  set (a := Channel (Some 8%nat) (Some 7%nat)). set (b := Channel None (Some 7%nat)). set (w := TpWorker (Some 9%nat) true).
  pose (s1 := after _ (create a true true true) s0). pose (s2 := after _ (create b true true true) s1). pose (s3 := after _ (create a true true false) s2).
  pose (s4 := after _ (create Token true true false) s3). pose (s5 := after _ (create w true true true) s4). pose (s6 := after _ (destroy a 2%nat) s5).
  exists s6, 10%nat, 5%nat. split.
  - apply (h_destroy _ s5 [_; _] 2%nat a []); [|vm_compute; reflexivity].
    apply (h_create _ s4 _ w true true true); [|vm_compute; reflexivity]. apply (h_fail _ s3 _ Token true true false); [|vm_compute; reflexivity].
    apply (h_fail _ s2 _ a true true false); [|vm_compute; reflexivity]. apply (h_create _ s1 _ b true true true); [|vm_compute; reflexivity].
    apply (h_create _ s0 _ a true true true); [|vm_compute; reflexivity]. apply h_start.
  - vm_compute. done.
Qed.
