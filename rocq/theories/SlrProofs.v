(** Proofs about the sliding window with its reference count: it is a system as RefsProofs.v asks for. *)
From Coq Require Import SpecFloat.
From Verif Require Import Common Block Prog Conc ConcLists SlidingModel SlidingSpec SlidingProofs SlcModel SlcSpec SlcProofs RefsModel RefsProofs.
Local Open Scope Z_scope.

(** What calls and answers change, and actions do not. *)
Definition seen (s : slc) : bool * list nat := (given_up (hist s), running (hist s)).
Ltac kp := let E := fresh in intros ? ? ? E;
  unfold acquire_exclusive, release_exclusive, acquire_shared, release_shared, srw_destroy, rd, wr, rd_at, wr_at, calc in E; repeat case_match; by simplify_eq.
Ltac kps := repeat first [apply keeps_ret | apply keeps_act; [kp|]; intros ?].
Lemma keeps_code wc i o : keeps seen (code (sliding_window wc) i o).
Proof.
  destruct o as [d v|d p|]; cbn [code sliding_window].
  - unfold add, add_end. destruct (negb d); kps. case_match; kps.
  - unfold get_average. destruct (negb d || negb p); kps.
  - unfold dispose_window. kps.
Qed.
Section wc.
Context (W : nat) (HW : (0 < W)%nat) (w0 : sliding) (Hw0 : rep W [] w0).
Notation L := (sliding_window (Z.of_nat W)).
(** The calls recorded as running are. *)
Lemma running_ok n c : reachable L (created w0) n c ->
  (forall i, i ∈ running (hist c.1) -> exists o p, c.2 !! i = Some (Running o p)) /\ (forall i o p, c.2 !! i = Some (Running o p) -> keeps seen p).
Proof.
  induction 1 as [|c c' _ [IH1 IH2] Hs]; cbn [fst snd].
  { split; [by intros i ?%elem_of_nil|]. intros i o p Hi. by apply lookup_replicate in Hi as [? _]. }
  destruct Hs as [s ts i o s' Hi Hc|s ts i o X m k x s' Hi Hm|s ts i o r Hi|s ts s' []]; cbn [fst snd] in *.
  - apply (call_hist W) in Hc as [_ ->]. cbn [hist set_hist running]. split.
    + intros j [->|Hj]%elem_of_cons; [exists o, (code L i o); by eapply upd_at|]. destruct (decide (j = i)) as [->|Hne]; [exists o, (code L i o); by eapply upd_at|].
      destruct (IH1 _ Hj) as (o'&p&Hp). exists o', p. by rewrite list_lookup_insert_ne.
    + intros j o' p Hj. apply upd_some in Hj as [[-> [= -> ->]]|[_ Hj]]; [exact (keeps_code (Z.of_nat W) i o)|by eapply IH2].
  - destruct (keeps_step seen (Act m k) s (k x) s') as [E Hk]; [by eapply IH2|cbn; by rewrite Hm|]. injection E as _ E. split.
    + intros j Hj. rewrite E in Hj. destruct (decide (j = i)) as [->|Hne]; [exists o, (k x); by eapply upd_at|]. destruct (IH1 _ Hj) as (o'&p&Hp). exists o', p. by rewrite list_lookup_insert_ne.
    + intros j o' p Hj. apply upd_some in Hj as [[-> [= -> ->]]|[_ Hj]]; [done|by eapply IH2].
  - cbn [hist set_hist running returns L]. split.
    + intros j [Hne Hj]%elem_of_list_filter. destruct (IH1 _ Hj) as (o'&p&Hp). exists o', p. by rewrite list_lookup_insert_ne.
    + intros j o' p Hj. apply upd_some in Hj as [[-> [=]]|[_ Hj]]. by eapply IH2.
Qed.

Notation closed := (fun s : slc => given_up (hist s)).
Section n.
Context (n : nat).
Lemma d_call i o s s' : given_window o = true -> calls L i o s = Some s' -> closed s' = closed s.
Proof. intros Ho [_ ->]%(call_hist W). by destruct o. Qed.
Lemma d_close i s s' : calls L i Dispose s = Some s' -> closed s' = true.
Proof. by intros [_ ->]%(call_hist W). Qed.
Lemma d_ret i o r s : closed (returns L i o r s) = closed s.
Proof. done. Qed.
Lemma d_code i o : given_window o = true \/ o = Dispose -> keeps closed (code L i o).
Proof. intros _. apply (keeps_map seen fst). exact (keeps_code (Z.of_nat W) i o). Qed.
Lemma d_free i c : reachable L (created w0) n c -> closed c.1 = false -> (forall j t, c.2 !! j = Some t -> t = Idle) -> is_Some (calls L i Dispose c.1).
Proof.
  intros Hr Hc Hid. cbn. unfold may_call. cbn in Hc. rewrite Hc. cbn. assert (running (hist c.1) = []) as ->; [|by eexists]. destruct (running (hist c.1)) as [|j l] eqn:E; [done|].
  destruct (proj1 (running_ok _ _ Hr) j) as (o&p&Hj); [rewrite E; by left|]. by apply Hid in Hj.
Qed.
Notation reach_c c := (reachable (counted_window (Z.of_nat W)) (created_window w0) n c).
Lemma slr_simulated c : reach_c c -> exists bs, reachable L (created w0) n (base c.1, bs).
Proof. exact (simulated L Dispose given_window (created w0) n closed eq_refl d_call d_close d_ret d_code d_free c). Qed.
Lemma slr_no_crash c i : reach_c c -> ~ crashed c i.
Proof. exact (RefsProofs.no_crash L Dispose given_window (created w0) n closed eq_refl d_call d_close d_ret d_code d_free (fun c i => SlcProofs.no_crash W HW n w0 Hw0 c i) c i). Qed.
Lemma slr_waits c i : reach_c c -> blocked c i -> exists (j : nat) (o : rop op) (p : prog (counted_state slc) (option res)), c.2 !! j = Some (Running o p) /\ ~ blocked c j.
Proof.
  intros Hr Hb. destruct (waits L Dispose given_window (created w0) n closed eq_refl d_call d_close d_ret d_code d_free (fun c i => SlcProofs.no_crash W HW n w0 Hw0 c i) c i Hr Hb) as (bs&Hbs&Hbb&Hup).
  destruct (no_deadlock W HW n w0 Hw0 _ _ Hbs Hbb) as (j&o&p&Hj&Hnb). exists j. by eapply Hup.
Qed.
Lemma slr_freed c : reach_c c -> freed c.1 = true -> closed (base c.1) = true.
Proof. exact (freed_closed L Dispose given_window (created w0) n closed eq_refl d_call d_close d_ret d_code d_free c). Qed.
Lemma slr_closed c : reach_c c -> closed (base c.1) = true -> hands c.1 = 0%nat /\ forall j o p, c.2 !! j <> Some (Running (Use o) p).
Proof. exact (when_closed L Dispose given_window (created w0) n closed eq_refl d_call d_close d_ret d_code d_free (fun c i => SlcProofs.no_crash W HW n w0 Hw0 c i) c). Qed.
Lemma slr_idle c : reach_c c -> (forall j t, c.2 !! j = Some t -> t = Idle) -> count c.1 = hands c.1 /\ (freed c.1 = true <-> hands c.1 = 0%nat) /\ dead (base c.1) = freed c.1.
Proof.
  intros Hr Hid. destruct (when_idle L Dispose given_window (created w0) n closed eq_refl d_call d_close d_ret d_code d_free (fun c i => SlcProofs.no_crash W HW n w0 Hw0 c i) c Hr Hid) as (H1&H2&H3&bs&Hbs&Hb).
  split_and!; [done..|]. rewrite <-H3. exact (proj1 (at_rest W HW n w0 Hw0 _ Hbs Hb)).
Qed.
End n.
End wc.
