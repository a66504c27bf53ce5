(** Proofs about DrcModel.v: the dispatcher is a system as RefsProofs.v asks for. *)
From Verif Require Import Common Prog Conc ConcLists DispModel DispSpec DispProofs RefsModel RefsProofs DrcModel.
Local Open Scope Z_scope.

(** What calls and answers change, and actions do not. *)
Definition seen (s : disp) : bool * list nat := (given_up (hist s), running (hist s)).
Ltac kp := let E := fresh in intros ? ? ? E;
  unfold malloc_target, acquire_exclusive, insert_tail, release_exclusive, remove_entry, free_target, acquire_shared, flink, begin_target, end_target, release_shared, srw_deinit in E; repeat case_match; by simplify_eq.
Lemma dispatch_loop_eq i a cur : dispatch_loop i a cur =
  match cur with
  | Some t => act* _ := begin_target i t a in act* _ := end_target i t in act* next := flink i (Some t) in dispatch_loop i a next
  | None => act* _ := release_shared i in Ret (Int 0)
  end.
Proof. rewrite (frob_eq (dispatch_loop i a cur)). by destruct cur. Qed.
Lemma free_loop_eq i cur : free_loop i cur =
  match cur with
  | Some t => act* _ := remove_entry i (th t) in act* _ := free_target (th t) in act* next := flink i None in free_loop i next
  | None => Ret (Int 0)
  end.
Proof. rewrite (frob_eq (free_loop i cur)). by destruct cur. Qed.
Lemma keeps_dispatch_loop i a cur : keeps seen (dispatch_loop i a cur).
Proof.
  apply (keeps_loop seen (fun p => exists cur, p = dispatch_loop i a cur)); [|apply keeps_again; eauto]. clear cur. intros p (cur&->). rewrite dispatch_loop_eq. destruct cur as [t|].
  - intros s x s' Hm. split; [revert s x s' Hm; kp|]. apply keeps_act; [kp|]. intros _. apply keeps_act; [kp|]. intros y. apply keeps_again. eauto.
  - intros s x s' Hm. split; [revert s x s' Hm; kp|]. apply keeps_ret.
Qed.
Lemma keeps_free_loop i cur : keeps seen (free_loop i cur).
Proof.
  apply (keeps_loop seen (fun p => exists cur, p = free_loop i cur)); [|apply keeps_again; eauto]. clear cur. intros p (cur&->). rewrite free_loop_eq. destruct cur as [t|]; [|done].
  intros s x s' Hm. split; [revert s x s' Hm; kp|]. apply keeps_act; [kp|]. intros _. apply keeps_act; [kp|]. intros y. apply keeps_again. eauto.
Qed.
Lemma keeps_code i o : keeps seen (code dispatcher i o).
Proof.
  destruct o as [d f c mem|d t|d a|]; cbn [code dispatcher].
  - unfold REGISTER_TARGET. destruct (negb d || (f =? 0)); [apply keeps_ret|]. destruct (negb mem); [apply keeps_ret|].
    apply keeps_act; [kp|]. intros h. apply keeps_act; [kp|]. intros _. apply keeps_act; [kp|]. intros _. apply keeps_act; [kp|]. intros _. apply keeps_ret.
  - destruct d, t as [h|]; try apply keeps_ret. cbn. apply keeps_act; [kp|]. intros _. apply keeps_act; [kp|]. intros _. apply keeps_act; [kp|]. intros _. apply keeps_act; [kp|]. intros _. apply keeps_ret.
  - unfold DISPATCH_CALL. destruct (negb d); [apply keeps_ret|]. apply keeps_act; [kp|]. intros _. apply keeps_act; [kp|]. intros x. apply keeps_dispatch_loop.
  - apply keeps_act; [kp|]. intros _. apply keeps_act; [kp|]. intros x. apply keeps_free_loop.
Qed.
(** The calls recorded as running are. *)
Lemma running_ok n c : reachable dispatcher created n c ->
  (forall i, i ∈ running (hist c.1) -> exists o p, c.2 !! i = Some (Running o p)) /\ (forall i o p, c.2 !! i = Some (Running o p) -> keeps seen p).
Proof.
  induction 1 as [|c c' _ [IH1 IH2] Hs]; cbn [fst snd].
  { split; [by intros i ?%elem_of_nil|]. intros i o p Hi. by apply lookup_replicate in Hi as [? _]. }
  destruct Hs as [s ts i o s' Hi Hc|s ts i o X m k x s' Hi Hm|s ts i o r Hi|s ts s' []]; cbn [fst snd] in *.
  - apply call_hist in Hc as [_ ->]. cbn [hist set_hist running]. split.
    + intros j [->|Hj]%elem_of_cons; [exists o, (code dispatcher i o); by eapply upd_at|]. destruct (decide (j = i)) as [->|Hne]; [exists o, (code dispatcher i o); by eapply upd_at|].
      destruct (IH1 _ Hj) as (o'&p&Hp). exists o', p. by rewrite list_lookup_insert_ne.
    + intros j o' p Hj. apply upd_some in Hj as [[-> [= -> ->]]|[_ Hj]]; [apply keeps_code|by eapply IH2].
  - destruct (keeps_step seen (Act m k) s (k x) s') as [E Hk]; [by eapply IH2|cbn; by rewrite Hm|]. injection E as _ E. split.
    + intros j Hj. rewrite E in Hj. destruct (decide (j = i)) as [->|Hne]; [exists o, (k x); by eapply upd_at|]. destruct (IH1 _ Hj) as (o'&p&Hp). exists o', p. by rewrite list_lookup_insert_ne.
    + intros j o' p Hj. apply upd_some in Hj as [[-> [= -> ->]]|[_ Hj]]; [done|by eapply IH2].
  - cbn [hist set_hist running returns dispatcher]. split.
    + intros j [Hne Hj]%elem_of_list_filter. destruct (IH1 _ Hj) as (o'&p&Hp). exists o', p. by rewrite list_lookup_insert_ne.
    + intros j o' p Hj. apply upd_some in Hj as [[-> [=]]|[_ Hj]]. by eapply IH2.
Qed.

Notation closed := (fun s : disp => given_up (hist s)).
Section n.
Context (n : nat).
Lemma d_call i o s s' : given_dispatcher o = true -> calls dispatcher i o s = Some s' -> closed s' = closed s.
Proof. intros Ho [_ ->]%call_hist. by destruct o. Qed.
Lemma d_close i s s' : calls dispatcher i Free s = Some s' -> closed s' = true.
Proof. by intros [_ ->]%call_hist. Qed.
Lemma d_ret i o r s : closed (returns dispatcher i o r s) = closed s.
Proof. done. Qed.
Lemma d_code i o : given_dispatcher o = true \/ o = Free -> keeps closed (code dispatcher i o).
Proof. intros _. apply (keeps_map seen fst). apply keeps_code. Qed.
Lemma d_free i c : reachable dispatcher created n c -> closed c.1 = false -> (forall j t, c.2 !! j = Some t -> t = Idle) -> is_Some (calls dispatcher i Free c.1).
Proof.
  intros Hr Hc Hid. cbn. unfold may_call. cbn in Hc. rewrite Hc. cbn. assert (running (hist c.1) = []) as ->; [|by eexists]. destruct (running (hist c.1)) as [|j l] eqn:E; [done|].
  destruct (proj1 (running_ok _ _ Hr) j) as (o&p&Hj); [rewrite E; by left|]. by apply Hid in Hj.
Qed.
Notation reach_c c := (reachable counted_dispatcher created_dispatcher n c).
Lemma drc_simulated c : reach_c c -> exists bs, reachable dispatcher created n (base c.1, bs).
Proof. exact (simulated dispatcher Free given_dispatcher created n closed eq_refl d_call d_close d_ret d_code d_free c). Qed.
Lemma drc_no_crash c i : reach_c c -> ~ crashed c i.
Proof. exact (RefsProofs.no_crash dispatcher Free given_dispatcher created n closed eq_refl d_call d_close d_ret d_code d_free (fun c i => DispProofs.no_crash n c i) c i). Qed.
Lemma drc_waits c i : reach_c c -> blocked c i -> exists (j : nat) (o : rop op) (p : prog (counted_state disp) (option res)), c.2 !! j = Some (Running o p) /\ ~ blocked c j.
Proof.
  intros Hr Hb. destruct (waits dispatcher Free given_dispatcher created n closed eq_refl d_call d_close d_ret d_code d_free (fun c i => DispProofs.no_crash n c i) c i Hr Hb) as (bs&Hbs&Hbb&Hup).
  destruct (no_deadlock _ _ _ Hbs Hbb) as (j&o&p&Hj&Hnb). exists j. by eapply Hup.
Qed.
Lemma drc_freed c : reach_c c -> freed c.1 = true -> closed (base c.1) = true.
Proof. exact (freed_closed dispatcher Free given_dispatcher created n closed eq_refl d_call d_close d_ret d_code d_free c). Qed.
Lemma drc_closed c : reach_c c -> closed (base c.1) = true -> hands c.1 = 0%nat /\ forall j o p, c.2 !! j <> Some (Running (Use o) p).
Proof. exact (when_closed dispatcher Free given_dispatcher created n closed eq_refl d_call d_close d_ret d_code d_free (fun c i => DispProofs.no_crash n c i) c). Qed.
Lemma drc_idle c : reach_c c -> (forall j t, c.2 !! j = Some t -> t = Idle) ->
  count c.1 = hands c.1 /\ (freed c.1 = true <-> hands c.1 = 0%nat) /\ elements (nodes (base c.1)) ≡ₚ if freed c.1 then [] else handles (hist (base c.1)).
Proof.
  intros Hr Hid. destruct (when_idle dispatcher Free given_dispatcher created n closed eq_refl d_call d_close d_ret d_code d_free (fun c i => DispProofs.no_crash n c i) c Hr Hid) as (H1&H2&H3&bs&Hbs&Hb). split_and!; [done..|]. rewrite <-H3. exact (memory _ _ Hbs Hb).
Qed.
End n.
