(** C60: the objects of C59 with any number of references to each. *)
From Verif Require Import Common LedgerModel LedgerSpec LedgerProofs LedrefModel LedrefSpec LedrefProofs.
Local Open Scope Z_scope.

(** After any history of creations, successful or not, copies and references given up: what exists is what the objects to which there are references own, and they hold the references to threadpools, log contexts and engines. *)
Theorem C60_exists_while_referenced refs0 t l : sharing refs0 t l ->
  (forall k, existing k (led t) = total (fun w => owns w k) (referenced l)) /\ (forall r, refs (led t) r = refs0 r + total (fun w => holds w r) (referenced l))%nat.
Proof.
  intros (l'&Hp&Hi)%sharing_inv%referenced_ok. split.
  - intros k. rewrite (inv_existing _ _ _ _ Hi). by apply total_perm.
  - intros r. rewrite (proj1 (proj2 Hi)). f_equal. by apply total_perm.
Qed.
Print Assumptions C60_exists_while_referenced.

(** Nothing undefined: creations answer, and every reference can be copied and given up. *)
Theorem C60_defined refs0 t l : sharing refs0 t l ->
  (forall w b1 b2 b3, exists r t', new w b1 b2 b3 t = Done (r, t') /\ (is_Some r <-> succeeds w b1 b2 b3 = true)) /\
  (forall h w, (h, w) ∈ l -> exists t1 t2, copy h t = Done (tt, t1) /\ give_up w h t = Done (tt, t2)).
Proof.
  intros H%sharing_inv. split.
  - intros w b1 b2 b3. destruct (new_ok _ _ _ w b1 b2 b3 H) as (r&t'&?&?&_). eauto.
  - intros h w Hin. destruct (copy_ok _ _ _ _ _ H Hin) as (t1&?&_). apply elem_of_list_split in Hin as (l1&l2&->). destruct (give_up_ok _ _ _ _ _ _ H) as (t2&?&_). eauto.
Qed.
Print Assumptions C60_defined.

(** Copying a reference, and giving up one when there is another to the same object, neither create nor release anything. *)
Theorem C60_not_before_last refs0 t l1 h w l2 t' : sharing refs0 t (l1 ++ (h, w) :: l2) -> copy h t = Done (tt, t') \/ (h, w) ∈ l1 ++ l2 /\ give_up w h t = Done (tt, t') -> led t' = led t.
Proof.
  intros (l'&Hi&Hm&Hc)%sharing_inv H. assert ((h, w) ∈ l') as Hin by (apply Hm; set_solver). specialize (Hc _ _ Hin). unfold copy, give_up in H. rewrite Hc in H. destruct H as [H|[Hx H]]; [by simplify_eq|].
  rewrite (count_perm _ _ ((h, w) :: l1 ++ l2)) in H by (by rewrite <-Permutation_middle). rewrite count_cons, decide_True in H by done. cbn [Nat.add] in H.
  destruct (count (h, w) (l1 ++ l2)) as [|c] eqn:E; [by apply count_none in E|]. by simplify_eq.
Qed.
Print Assumptions C60_not_before_last.

(** The call that gives up the last reference releases what the object owns, and gives up the references that it holds. *)
Theorem C60_last refs0 t l1 h w l2 t' : sharing refs0 t (l1 ++ (h, w) :: l2) -> (h, w) ∉ l1 ++ l2 -> give_up w h t = Done (tt, t') ->
  (forall k, existing k (led t) = existing k (led t') + owns w k)%nat /\ (forall r, refs (led t) r = refs (led t') r + holds w r)%nat.
Proof.
  intros H Hx Hg. pose proof (s_give_up _ _ _ _ _ _ _ H Hg) as H'. destruct (C60_exists_while_referenced _ _ _ H) as [E1 E2]. destruct (C60_exists_while_referenced _ _ _ H') as [E1' E2'].
  assert (referenced (l1 ++ (h, w) :: l2) ≡ₚ (h, w) :: referenced (l1 ++ l2)) as Hp.
  { unfold referenced. apply NoDup_Permutation; [apply NoDup_remove_dups| |].
    - constructor; [by rewrite elem_of_remove_dups|apply NoDup_remove_dups].
    - intros x. rewrite elem_of_cons, !elem_of_remove_dups, !elem_of_app, elem_of_cons. tauto. }
  split.
  - intros k. rewrite E1, E1', (total_perm _ _ _ Hp), total_cons. lia.
  - intros r. rewrite E2, E2', (total_perm _ _ _ Hp), total_cons. lia.
Qed.
Print Assumptions C60_last.

(** A channel on the threadpool 7 with two references, one given up, and an array created, shared and freed. *)
Example ex_sharing : exists t h, sharing (fun _ => 1%nat) t [(h, Channel None (Some 7%nat))] /\ (existing Mem (led t), existing Sm (led t), existing Lock (led t)) = (1, 1, 1)%nat /\ refs (led t) 7%nat = 2%nat.
Proof.
  set (after := fun A (m : M shared A) s => match m s with Done (_, s') => s' | _ => s end). set (t0 := Shared (Ledger 0 ∅ ∅ (fun _ => 1%nat)) ∅).
  set (a := Channel None (Some 7%nat)). set (b := TArray 3).
  pose (t1 := after _ (new a true true true) t0). pose (t2 := after _ (copy 2%nat) t1). pose (t3 := after _ (new b true true true) t2). pose (t4 := after _ (copy 3%nat) t3).
  pose (t5 := after _ (give_up b 3%nat) t4). pose (t6 := after _ (give_up b 3%nat) t5). pose (t7 := after _ (give_up a 2%nat) t6).
  exists t7, 2%nat. split; [|vm_compute; done].
  apply (s_give_up _ t6 [] 2%nat a [(2%nat, a)]); [|vm_compute; reflexivity]. apply (s_give_up _ t5 [] 3%nat b [(2%nat, a); (2%nat, a)]); [|vm_compute; reflexivity].
  apply (s_give_up _ t4 [] 3%nat b [(3%nat, b); (2%nat, a); (2%nat, a)]); [|vm_compute; reflexivity].
  apply (s_copy _ t3); [|set_solver|done|vm_compute; reflexivity]. apply (s_new _ t2 _ b true true true); [|vm_compute; reflexivity].
  apply (s_copy _ t1); [|set_solver|done|vm_compute; reflexivity]. apply (s_new _ t0 _ a true true true); [|vm_compute; reflexivity]. apply s_start.
Qed.
