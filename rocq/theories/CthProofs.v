(** Proofs about CthModel.v: the token with its reference count is a system as HrefProofs.v asks for. *)
From Verif Require Import Common Prog Conc ConcLists CtokModel CtokSpec CtokProofs CtrModel CtrProofs RefsProofs HrefModel HrefProofs CthModel.

(** What calls and answers change, and actions do not. *)
Definition out (s : shared) : list addr := handles (hist (base s)).
Definition out_t (s : tok) : list addr := handles (hist s).
Ltac kp := let E := fresh in intros ? ? ? E;
  unfold touch, apart, CtrModel.inc_ref, CtrModel.dec_ref, take_field, drop_field, dispose_token, load_state, cas_canceled, malloc_registration, free_registration, set_target_handle, get_target_handle, register_target, unregister_target,
    dispatch_begin, dispatch_nth, dispatch_end, begin_callback, end_callback in E; repeat case_match; by simplify_eq.
Ltac ka := apply keeps_act; [kp|intros ?].
Lemma loop_eq i k : dispatch_loop i k =
  act* t := dispatch_nth i k in
  match t with
  | Some t => act* _ := begin_callback i (Some (tr t)) (tf t) (tc t) in act* _ := end_callback i (Some (tr t)) in dispatch_loop i (S k)
  | None => act* _ := dispatch_end i in Ret (Int 0)
  end.
Proof. by rewrite (frob_eq (dispatch_loop i k)). Qed.
Lemma keeps_dispatch_loop i k : keeps out_t (dispatch_loop i k).
Proof.
  apply (keeps_loop out_t (fun p => exists k, p = dispatch_loop i k)); [|apply keeps_again; eauto]. clear k. intros p (k&->). rewrite loop_eq.
  intros s x s' Hm. split; [revert s x s' Hm; kp|]. destruct x as [t|]; ka; [ka|apply keeps_ret]. apply keeps_again. eauto.
Qed.
Lemma keeps_on_token p k : keeps out_t p -> (forall r, keeps out (k r)) -> keeps out (on_token p k).
Proof.
  intros Hp Hk. exists (fun q => (exists p, q = on_token p k /\ keeps out_t p) \/ keeps out q). split; [eauto|]. clear p Hp. intros q [(p&->&Hp)|Hq]; right.
  - destruct p as [r|X m q].
    + rewrite on_ret. specialize (Hk r). apply keeps_unfold in Hk as [[]|Hk]. revert Hk. apply kept_mono. eauto.
    + rewrite on_act. apply keeps_unfold in Hp as [[]|Hp]. intros s x s' Hm. unfold touch, apart in Hm. destruct (freed s); [done|]. destruct (m (base s)) as [[y b]| |] eqn:Em; [|done..]. injection Hm as <- <-.
      destruct (Hp _ _ _ Em) as [E Hq]. split; [exact E|]. left. eauto.
  - apply keeps_unfold in Hq as [[]|Hq]. revert Hq. apply kept_mono. eauto.
Qed.
Lemma keeps_code i o : keeps out (code counted i o).
Proof.
  destruct o as [[d|d f c m1 m2|r|d]| |]; cbn [code counted].
  - apply keeps_on_token; [|intros; apply keeps_ret]. unfold cancellation_token_is_canceled. destruct (negb d); [apply keeps_ret|]. ka. apply keeps_ret.
  - apply keeps_on_token; [|intros [|[]| |]; cbn; try apply keeps_ret; ka; apply keeps_ret]. unfold cancellation_token_register_notify. destruct (negb d || _); [apply keeps_ret|]. ka. destruct x.
    + ka. ka. apply keeps_ret.
    + destruct (negb m1); [apply keeps_ret|]. ka. destruct (negb m2); [ka; apply keeps_ret|]. ka. ka. apply keeps_ret.
  - ka. ka. ka. destruct x1; [ka|]; ka; apply keeps_ret.
  - apply keeps_on_token; [|intros; apply keeps_ret]. unfold cancellation_token_cancel. destruct (negb d); [apply keeps_ret|]. ka. destruct x; [apply keeps_ret|]. ka. apply keeps_dispatch_loop.
  - ka. apply keeps_ret.
  - ka. destruct x; [ka|]; apply keeps_ret.
Qed.

Section cth.
Context (b0 m1 m2 : bool) (s0 : shared) (n : nat) (Hs0 : created_token b0 m1 m2 = Some s0).
Notation sys := token_with_registrations.
Lemma out_start : out s0 = [].
Proof. unfold created_token, cancellation_token_create in Hs0. destruct m1, m2; simplify_eq/=; done. Qed.
Lemma out_call i o s s' : by_user o = true -> calls counted i o s = Some s' -> out s' = out s.
Proof. intros Hu. cbn [calls counted]. destruct (decide _); [|done]. destruct o as [[]| |]; cbn; intros; simplify_eq/=; done. Qed.
Lemma out_kill i a s s' : calls counted i (dispose_call a) s = Some s' -> forall x, x ∈ out s' <-> x ∈ out s /\ x <> a.
Proof. cbn. case_bool_decide; [|done]. intros [= <-] x. cbn. rewrite elem_of_list_filter. naive_solver. Qed.
Lemma out_ret i o r s : by_user o = true -> forall x, x ∈ out (returns counted i o r s) <-> x ∈ out s \/ new_registration o r = Some x.
Proof. intros Hu x. unfold out. destruct o as [[]| |]; try done; cbn; try naive_solver. destruct r as [|[]| |]; cbn; rewrite ?elem_of_cons; naive_solver. Qed.
Lemma out_retk i a r s : out (returns counted i (dispose_call a) r s) = out s.
Proof. done. Qed.
Lemma out_new c i o r a : reachable counted s0 n c -> c.2 !! i = Some (Running o (Ret r)) -> by_user o = true -> new_registration o r = Some a -> a ∉ out c.1.
Proof.
  intros Hr Hi Hu Hn. destruct o as [[|d f k mm1 mm2| |]| |]; try done. destruct r as [|[x|]| |]; try done. injection Hn as ->. destruct c as [s ts]. cbn [fst snd] in *.
  assert (reachable counted s0 n (returns counted i (Use (Register d f k mm1 mm2)) (Handle (Some a)) s, <[i := Idle]> ts)) as Hr' by (eapply reach_step; [exact Hr|by apply step_return]).
  pose proof (history _ _ _ _ _ _ Hs0 Hr' [] _ _ eq_refl) as He. cbn in He. destruct (d && negb (f =? 0)%Z); [|naive_solver]. destruct He as [(?&?)|(_&_&He)]; [done|]. destruct (mm1 && mm2); [|done]. naive_solver.
Qed.
Lemma out_may i a s : a ∈ out s -> is_Some (calls counted i (dispose_call a) s).
Proof. intros H. cbn. rewrite bool_decide_eq_true_2 by done. eauto. Qed.

Lemma base_safe c i : reachable counted s0 n c -> ~ crashed c i.
Proof. intros Hr. exact (CtrProofs.no_crash _ _ _ _ _ _ Hs0 Hr i). Qed.

Notation start := (unshared s0).
Lemma cth_no_crash c i : reachable sys start n c -> ~ crashed c i.
Proof.
  apply (HrefProofs.no_crash counted dispose_call by_user new_registration s0 n out out_start out_call out_kill out_ret out_retk keeps_code out_new out_may). intros c' j Hr. exact (CtrProofs.no_crash _ _ _ _ _ _ Hs0 Hr j).
Qed.
Lemma cth_simulated c : reachable sys start n c -> exists bs, reachable counted s0 n (inner c.1, bs) /\
  (forall i b, bs !! i = Some b -> exists t, c.2 !! i = Some t /\ (t = Idle -> b = Idle) /\ forall o, t <> Idle -> forall p, b = Running o p -> (exists q, t = Running (HUse o) q) \/ exists a q, t = Running (HDrop a) q /\ o = dispose_call a).
Proof. exact (simulated counted dispose_call by_user new_registration s0 n out out_start out_call out_kill out_ret out_retk keeps_code out_new out_may c). Qed.
Lemma cth_waits c i : reachable sys start n c -> blocked c i -> exists (j : nat) (o : hop CtrModel.rop) (p : prog (held_state shared) (option res)), c.2 !! j = Some (Running o p) /\ ~ blocked c j.
Proof.
  intros Hr Hb. destruct (waits counted dispose_call by_user new_registration s0 n out out_start out_call out_kill out_ret out_retk keeps_code out_new out_may c i Hr Hb) as (bs&Hbs&Hbi&Hw).
  destruct (no_deadlock _ _ _ _ _ _ Hs0 Hbs i Hbi) as (j&o&p&Hj&Hn). destruct (Hw _ _ _ Hj Hn) as (o'&p'&?&?). eauto.
Qed.
Lemma cth_held c a : reachable sys start n c -> (a ∈ out (inner c.1) <-> 0 < count_of a c.1) /\ refs_to a c.1 <= count_of a c.1 /\ (forall i q, c.2 !! i = Some (Running (HCopy a) q) -> refs_to a c.1 < count_of a c.1).
Proof. exact (held counted dispose_call by_user new_registration s0 n out out_start out_call out_kill out_ret out_retk keeps_code out_new out_may base_safe c a). Qed.
Lemma cth_idle c : reachable sys start n c -> (forall j t, c.2 !! j = Some t -> t = Idle) ->
  (forall a, count_of a c.1 = refs_to a c.1 /\ (a ∈ out (inner c.1) <-> 0 < refs_to a c.1)) /\ exists bs, reachable counted s0 n (inner c.1, bs) /\ forall j b, bs !! j = Some b -> b = Idle.
Proof. exact (HrefProofs.when_idle counted dispose_call by_user new_registration s0 n out out_start out_call out_kill out_ret out_retk keeps_code out_new out_may base_safe c). Qed.
End cth.
