(** Proofs about async_op_cancel. *)
From Verif Require Import Common Prog Conc AsyncCancelModel.
Local Open Scope Z_scope.

Inductive pc := Out | Start | Calling | Won (called : bool) | Lost | Bad.
Global Instance pc_eq_dec : EqDecision pc.
Proof. solve_decision. Defined.
Section op.
Context (context : Z) (has_cancel : bool).
Definition answer_ok (a : nat * bool * Z) : Prop := a.2 = if a.1.2 then ASYNC_CANCELLING else ASYNC_INVALID_ARG.
Record Inv (s : async_op) (ls : list pc) : Prop := {
  inv_running : cancel_state s = ASYNC_RUNNING -> cancelled s = [] /\ forall i l, ls !! i = Some l -> l = Out \/ l = Start \/ l = Bad;
  inv_state : cancel_state s = ASYNC_RUNNING \/ cancel_state s = ASYNC_CANCELLING;
  inv_once : cancel_state s = ASYNC_CANCELLING -> has_cancel = true ->
    (cancelled s = [] /\ num (.= Calling) ls = 1%nat) \/ (cancelled s = [context] /\ num (.= Calling) ls = 0%nat);
  inv_none : has_cancel = false -> cancelled s = [];
  inv_results : Forall answer_ok (results s);
  inv_some : forall i r, (i, true, r) ∈ results s -> cancel_state s = ASYNC_CANCELLING;
}.
Notation runs := (runs_ok (cancels context has_cancel) Inv (.= Out) (fun _ _ _ => False) (fun _ _ _ => True)).

Lemma move (s : async_op) ls i l l' : ls !! i = Some l -> l <> Calling -> l' = Out \/ l' = Start \/ l' = Bad \/ (l' = Lost /\ cancel_state s = ASYNC_CANCELLING) -> Inv s ls -> Inv s (<[i := l']> ls).
Proof.
  intros Hi H1 H2 [H3 H4 H5 H6 H7 H8]. pose proof (num_insert (.= Calling) ls i l l' Hi) as Hn. rewrite !decide_False in Hn by naive_solver. split; auto.
  - intros Hr. destruct (H3 Hr) as [? Hl]. split; [done|]. intros j lj [(<-&<-&_)|(_&Hj)]%list_lookup_insert_Some; [|eauto]. destruct H2 as [|[|[|[_ E]]]]; auto. rewrite E in Hr. done.
  - intros Hc Hh. specialize (H5 Hc Hh). rewrite !Nat.add_0_r in Hn. by rewrite Hn.
Qed.
Lemma finish i o r l : answer_ok (i, o, r) -> l <> Calling -> (o = true -> l <> Out /\ l <> Start /\ l <> Bad) -> runs i o (Ret r) l.
Proof.
  intros Ha Hl Ho. apply wpa_ret; [done|]. intros s ls Hi HI. exists Out. split; [done|]. assert (o = true -> cancel_state s = ASYNC_CANCELLING) as Hs.
  { intros ->. destruct HI as [H3 [H4|H4] _ _ _ _]; [|done]. destruct (H3 H4) as [_ H]. specialize (H _ _ Hi). naive_solver. }
  apply (move s ls i l Out) in HI; [|done|done|by left]. destruct HI as [H3 H4 H5 H6 H7 H8]. split; cbn [returns cancels cancel_state cancelled results]; auto.
  intros j rj [E|Hj]%elem_of_cons; [|by eauto]. simplify_eq. auto.
Qed.
Lemma cancel_ok i o : runs i o (async_op_cancel context has_cancel o) (if o then Start else Bad).
Proof.
  destruct o; cbn; [|by apply finish]. apply wpa_act; [done|]. intros s ls Hi HI. unfold interlocked_compare_exchange. destruct (Z.eqb_spec (cancel_state s) ASYNC_RUNNING) as [E|E].
  - exists (if has_cancel then Calling else Won true). destruct (inv_running _ _ HI E) as [Hc Hl]. assert (num (.= Calling) ls = 0%nat) as Hz.
    { destruct (num (.= Calling) ls) eqn:En; [done|]. destruct (num_ex (.= Calling) ls) as (j&lj&Hj&->); [lia|]. specialize (Hl _ _ Hj). naive_solver. }
    destruct HI as [H3 H4 H5 H6 H7 H8]. pose proof (num_insert (.= Calling) ls i Start (if has_cancel then Calling else Won true) Hi) as Hn. rewrite (decide_False (P := Start = Calling)) in Hn by done. split.
    + split; cbn [cancel_state cancelled results]; auto; [done| |done..]. intros _ Hh. left. rewrite Hh in *. rewrite decide_True in Hn by done. split; [done|lia].
    + destruct has_cancel eqn:Hh; [|by apply finish]. clear s ls Hi E Hc Hl Hz H3 H4 H5 H6 H7 H8 Hn. apply wpa_act; [done|]. intros s ls Hi [H3 H4 H5 H6 H7 H8].
      exists (Won true). pose proof (num_insert (.= Calling) ls i Calling (Won true) Hi) as Hn. rewrite decide_True in Hn by done. rewrite decide_False in Hn by done. pose proof (num_pos (.= Calling) ls i _ Hi eq_refl) as Hp. split; [|by apply finish].
      assert (cancel_state s = ASYNC_CANCELLING) as E. { destruct H4 as [H4|]; [|done]. destruct (H3 H4) as [_ H]. specialize (H _ _ Hi). naive_solver. }
      split; cbn [cancel_state cancelled results]; auto.
      * rewrite E. done.
      * intros _ _. right. destruct (H5 E Hh) as [[-> ?]|[_ ?]]; [split; [done|lia]|lia].
      * intros. congruence.
  - assert (cancel_state s = ASYNC_CANCELLING) as Ec by (destruct (inv_state _ _ HI); done). exists Lost. rewrite Ec. split; [|by apply finish]. eapply move; [done|done| |done]. auto.
Qed.
Lemma reach n c : reachable (cancels context has_cancel) created_op n c -> conf_ok (cancels context has_cancel) Inv (.= Out) (fun _ _ _ => False) (fun _ _ _ => True) c.
Proof.
  eapply reach_ok with (l0 := Out).
  - intros i o s s' ls l Hl -> HI [= <-]. exists (if o then Start else Bad). split; [|apply cancel_ok]. eapply move; [done|done| |done]. destruct o; auto.
  - by intros s s' ls HI [].
  - done.
  - split; cbn; auto; [|done|by intros i r Hx%elem_of_nil]. split; [done|]. intros i l Hl. apply lookup_replicate in Hl as [-> _]. auto.
Qed.

Lemma cancel_once n c : reachable (cancels context has_cancel) created_op n c ->
  (length (cancelled c.1) <= 1)%nat /\ (has_cancel = false -> cancelled c.1 = []) /\ (forall x, x ∈ cancelled c.1 -> x = context) /\ (forall i, ~ crashed c i) /\ (forall i, ~ blocked c i) /\
  (forall i o r, (i, o, r) ∈ results c.1 -> r = if (o : bool) then ASYNC_CANCELLING else ASYNC_INVALID_ARG).
Proof.
  intros Hr. pose proof (reach _ _ Hr) as Hok. pose proof Hok as (ls&Hlen&[H3 H4 H5 H6 H7 H8]&Hts).
  assert (cancelled c.1 = [] \/ cancelled c.1 = [context]) as Hx. { destruct H4 as [H4|H4]; [left; by apply H3|]. destruct has_cancel; [|auto]. destruct (H5 H4 eq_refl) as [[]|[]]; auto. }
  split_and!.
  - destruct Hx as [->| ->]; cbn; lia.
  - done.
  - intros x Hin. destruct Hx as [E|E]; rewrite E in Hin; [by apply elem_of_nil in Hin|by apply elem_of_list_singleton in Hin].
  - intros i. by eapply ok_no_crash.
  - intros i Hb. by pose proof (ok_blocked _ _ _ _ _ _ _ _ Hlen (Build_Inv _ _ H3 H4 H5 H6 H7 H8) Hts Hb) as (l&_&[]).
  - intros i o r Hin. rewrite Forall_forall in H7. by apply H7 in Hin.
Qed.
Lemma cancel_exactly_once n c i r : has_cancel = true -> reachable (cancels context has_cancel) created_op n c -> (i, true, r) ∈ results c.1 -> (forall j t, c.2 !! j = Some t -> t = Idle) ->
  cancelled c.1 = [context].
Proof.
  intros Hh Hr Hin Hid. pose proof (reach _ _ Hr) as (ls&Hlen&[H3 H4 H5 H6 H7 H8]&Hts). destruct (H5 (H8 _ _ Hin) Hh) as [[_ Hn]|[]]; [|done].
  destruct (num_ex (.= Calling) ls) as (j&lj&Hj&->); [lia|]. assert (exists t, c.2 !! j = Some t) as [t Ht] by (apply lookup_lt_is_Some_2; rewrite <-Hlen; by eapply lookup_lt_Some).
  specialize (Hts _ _ _ Ht Hj). rewrite (Hid _ _ Ht) in Hts. done.
Qed.
End op.
