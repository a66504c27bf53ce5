(** Proofs about HrefModel.v: every execution with counted references is one of the system without them, in which a struct is disposed of when its last reference is given up. *)
From Verif Require Import Common Prog Conc ConcLists RefsProofs HrefModel.

Section hrefs.
Context {S O R : Type} (L : system S O R) (kill : nat -> O) (uses : O -> bool) (makes : O -> R -> option nat) (s0 : S) (n : nat) (handles : S -> list nat).
Context (Hstart : handles s0 = []).
Context (Hcall : forall i o s s', uses o = true -> calls L i o s = Some s' -> handles s' = handles s).
Context (Hkill : forall i a s s', calls L i (kill a) s = Some s' -> forall x, x ∈ handles s' <-> x ∈ handles s /\ x <> a).
Context (Hret : forall i o r s, uses o = true -> forall x, x ∈ handles (returns L i o r s) <-> x ∈ handles s \/ makes o r = Some x).
Context (Hretk : forall i a r s, handles (returns L i (kill a) r s) = handles s).
Context (Hcode : forall i o, keeps handles (code L i o)).
Context (Hnew : forall c i o r a, reachable L s0 n c -> c.2 !! i = Some (Running o (Ret r)) -> uses o = true -> makes o r = Some a -> a ∉ handles c.1).
Context (Hmay : forall i a s, a ∈ handles s -> is_Some (calls L i (kill a) s)).
Notation HS := (held_state S).
Notation sys := (shared_handles L kill uses makes).
Notation HT := (Conc.thread HS (hop O) (option R)).
Notation BT := (Conc.thread S O R).

(** A thread, the thread of L that does the same, and the references to which struct it has been lent or has made. *)
Inductive alike (i : nat) : HT -> BT -> nat * nat -> Prop :=
| a_idle a : alike i Idle Idle (a, 0)
| a_use o p a : uses o = true -> keeps handles p -> alike i (Running (HUse o) (on_inner p)) (Running o p) (a, 0)
| a_copy a : alike i (Running (HCopy a) (copy_code a)) Idle (a, 1)
| a_copied a : alike i (Running (HCopy a) (Ret None)) Idle (a, 2)
| a_drop a : alike i (Running (HDrop a) (drop_code L kill i a)) Idle (a, 1)
| a_last a p : keeps handles p -> alike i (Running (HDrop a) (on_inner p)) (Running (kill a) p) (a, 0)
| a_dropped a : alike i (Running (HDrop a) (Ret None)) Idle (a, 0).
Definition lent_by (a : nat) (l : nat * nat) : nat := if decide (l.1 = a) then l.2 else 0.
Definition lent_to (a : nat) (ls : list (nat * nat)) : nat := sum_list (lent_by a <$> ls).
Lemma lent_upd a ls i t t' : ls !! i = Some t -> lent_to a (<[i := t']> ls) + lent_by a t = lent_to a ls + lent_by a t'.
Proof. unfold lent_to. revert i. induction ls as [|x ls IH]; intros [|i] Hi; simplify_eq/=; [lia|]. specialize (IH _ Hi). lia. Qed.
Lemma lent_in a ls i t : ls !! i = Some t -> lent_by a t <= lent_to a ls.
Proof. unfold lent_to. revert i. induction ls as [|x ls IH]; intros [|i] Hi; simplify_eq/=; [lia|]. specialize (IH _ Hi). lia. Qed.
Lemma lent_zero a ls : (forall i l, ls !! i = Some l -> l.2 = 0) -> lent_to a ls = 0.
Proof.
  unfold lent_to. induction ls as [|x ls IH]; [done|]. intros H. cbn. rewrite IH by (intros i l Hi; exact (H (Datatypes.S i) l Hi)). pose proof (H 0 x eq_refl). unfold lent_by. case_decide; lia.
Qed.
Lemma lent_self a k : lent_by a (a, k) = k.
Proof. unfold lent_by. by rewrite decide_True. Qed.
Lemma lent_none a b : lent_by a (b, 0) = 0.
Proof. unfold lent_by. by case_decide. Qed.
Lemma lent_other a b k : a <> b -> lent_by a (b, k) = 0.
Proof. intros. unfold lent_by. by rewrite decide_False by (cbn; congruence). Qed.

Record inv (c : HS * list HT) (bs : list BT) (ls : list (nat * nat)) : Prop := {
  i_base : reachable L s0 n (inner c.1, bs);
  i_lb : length bs = length c.2;
  i_ll : length ls = length c.2;
  i_thr : forall i t b l, c.2 !! i = Some t -> bs !! i = Some b -> ls !! i = Some l -> alike i t b l;
  i_count : forall a, count_of a c.1 = refs_to a c.1 + lent_to a ls;
  i_in : forall a, 0 < count_of a c.1 <-> a ∈ handles (inner c.1);
}.

Lemma on_inner_Ret r : on_inner (Ret r : prog S R) = Ret (Some r).
Proof. by rewrite (frob_eq (on_inner (Ret r))). Qed.
Lemma on_inner_Act X (m : M S X) (q : X -> prog S R) : on_inner (Act m q) = Act (inside m) (fun x => on_inner (q x)).
Proof. by rewrite (frob_eq (on_inner (Act m q))). Qed.
Lemma on_inner_step (p : prog S R) s :
  pstep (on_inner p) s = match p with
                         | Ret r => None
                         | Act m q => Some (match m (inner s) with Done (x, b) => Done (on_inner (q x), set_inner b s) | Undef => Undef | NoFuel => NoFuel end)
                         end.
Proof. destruct p as [r|X m q]; [by rewrite on_inner_Ret|]. rewrite on_inner_Act. cbn [pstep]. unfold inside. by destruct (m (inner s)) as [[x b]| |]. Qed.
Lemma on_inner_ret (p : prog S R) y : on_inner p = Ret y -> exists r, p = Ret r /\ y = Some r.
Proof. destruct p as [r|X m q]; [rewrite on_inner_Ret; intros [= <-]; eauto|by rewrite on_inner_Act]. Qed.

Lemma count_set a x k (s : HS) : count_of a (set_count x k s) = if decide (a = x) then k else count_of a s.
Proof. unfold count_of, set_count. cbn. case_decide as E; [subst; by rewrite lookup_total_insert|by rewrite lookup_total_insert_ne]. Qed.
Lemma refs_set a x k (s : HS) : refs_to a (set_refs x k s) = if decide (a = x) then k else refs_to a s.
Proof. unfold refs_to, set_refs. cbn. case_decide as E; [subst; by rewrite lookup_total_insert|by rewrite lookup_total_insert_ne]. Qed.

(** One thread changes. *)
Lemma update c bs ls i t b l (s' : HS) t' b' l' : inv c bs ls -> c.2 !! i = Some t -> bs !! i = Some b -> ls !! i = Some l ->
  reachable L s0 n (inner s', <[i := b']> bs) -> alike i t' b' l' ->
  (forall a, count_of a s' + refs_to a c.1 + lent_by a l = refs_to a s' + count_of a c.1 + lent_by a l') ->
  (forall a, 0 < count_of a s' <-> a ∈ handles (inner s')) ->
  inv (s', <[i := t']> c.2) (<[i := b']> bs) (<[i := l']> ls).
Proof.
  intros HI Ht Hb Hl Hr Ha Hc Hin. split; cbn [fst snd]; try done.
  - rewrite !insert_length. exact (i_lb _ _ _ HI).
  - rewrite !insert_length. exact (i_ll _ _ _ HI).
  - intros j tj bj lj Htj Hbj Hlj. apply upd_some in Htj as [[-> ->]|[Hj Htj]]; apply upd_some in Hbj as [[? ->]|[? Hbj]]; try done; apply upd_some in Hlj as [[? ->]|[? Hlj]]; try done.
    by eapply (i_thr _ _ _ HI).
  - intros a. pose proof (lent_upd a ls i l l' Hl). pose proof (i_count _ _ _ HI a). specialize (Hc a). lia.
Qed.
Lemma thread_of c bs ls i t : inv c bs ls -> c.2 !! i = Some t -> exists b l, bs !! i = Some b /\ ls !! i = Some l /\ alike i t b l.
Proof.
  intros HI Ht. pose proof (lookup_lt_Some _ _ _ Ht) as Hlt.
  destruct (lookup_lt_is_Some_2 bs i) as [b Hb]; [by rewrite (i_lb _ _ _ HI)|]. destruct (lookup_lt_is_Some_2 ls i) as [l Hl]; [by rewrite (i_ll _ _ _ HI)|].
  exists b, l. split_and!; try done. by eapply (i_thr _ _ _ HI).
Qed.
Lemma thread_back c bs ls i b : inv c bs ls -> bs !! i = Some b -> exists t l, c.2 !! i = Some t /\ ls !! i = Some l /\ alike i t b l.
Proof.
  intros HI Hb. pose proof (lookup_lt_Some _ _ _ Hb) as Hlt.
  destruct (lookup_lt_is_Some_2 c.2 i) as [t Ht]; [by rewrite <-(i_lb _ _ _ HI)|]. destruct (thread_of _ _ _ _ _ HI Ht) as (b'&l&Hb'&Hl&Ha). simplify_eq. eauto.
Qed.
(** A struct to which a thread has references is there. *)
Lemma present c bs ls i a k : inv c bs ls -> ls !! i = Some (a, k) -> k <= count_of a c.1.
Proof. intros HI Hl. pose proof (i_count _ _ _ HI a). pose proof (lent_in a _ _ _ Hl) as H1. rewrite lent_self in H1. lia. Qed.

Lemma count_inner a b (s : HS) : count_of a (set_inner b s) = count_of a s.
Proof. done. Qed.
Lemma count_refs a x k (s : HS) : count_of a (set_refs x k s) = count_of a s.
Proof. done. Qed.
Lemma refs_inner a b (s : HS) : refs_to a (set_inner b s) = refs_to a s.
Proof. done. Qed.
Lemma refs_count a x k (s : HS) : refs_to a (set_count x k s) = refs_to a s.
Proof. done. Qed.
Ltac sums := let x := fresh in intros x; repeat first [rewrite count_set|rewrite refs_set|rewrite count_inner|rewrite count_refs|rewrite refs_inner|rewrite refs_count|rewrite lent_none];
  repeat case_decide; subst; rewrite ?lent_self; rewrite ?lent_other by done; lia.
Lemma step_inv c c' : (exists bs ls, inv c bs ls) -> step sys c c' -> exists bs ls, inv c' bs ls.
Proof.
  intros (bs&ls&HI) Hs.
  pose proof (i_base _ _ _ HI) as Hr. pose proof (i_count _ _ _ HI) as Hcnt. pose proof (i_in _ _ _ HI) as Hin.
  destruct Hs as [s ts i o s' Hi Hc|s ts i o X m k x s' Hi Hm|s ts i o r Hi|s ts s' []]; cbn [fst snd] in *; destruct (thread_of _ _ _ _ _ HI Hi) as (b&l&Hb&Hl&Ha).
  - (* a call *)
    inversion Ha; subst. cbn in Hc. destruct o as [o|a1|a1].
    + destruct (uses o) eqn:Eu; [|done]. destruct (calls L i o (inner s)) as [b'|] eqn:Ec; [|done]. injection Hc as <-.
      eexists _, _. eapply (update (_, _) bs ls i Idle Idle _ _ _ (Running o (code L i o)) (a, 0) HI); cbn [fst snd]; try done.
      * eapply reach_step; [exact Hr|]. by apply step_call.
      * apply a_use; [done|]. apply Hcode.
      * sums.
      * cbn. by rewrite (Hcall _ _ _ _ Eu Ec).
    + destruct (refs_to a1 s) as [|k] eqn:Ek; [done|]. injection Hc as <-.
      eexists _, _. eapply (update (_, _) bs ls i Idle Idle _ _ _ Idle (a1, 1) HI); cbn [fst snd]; try done; [by rewrite (list_insert_id bs)|apply a_copy|sums].
    + destruct (refs_to a1 s) as [|k] eqn:Ek; [done|]. injection Hc as <-.
      eexists _, _. eapply (update (_, _) bs ls i Idle Idle _ _ _ Idle (a1, 1) HI); cbn [fst snd]; try done; [by rewrite (list_insert_id bs)|apply a_drop|sums].
  - (* an action *)
    assert (pstep (Act m k) s = Some (Done (k x, s'))) as Hp by (cbn; by rewrite Hm). clear Hm. revert Hp Ha Hi. generalize (k x). generalize (Act m k). clear X m k x. intros p p' Hp Ha Hi.
    inversion Ha; subst.
    + rewrite on_inner_step in Hp. destruct p0 as [r|X m q]; [done|]. destruct (m (inner s)) as [[x b']| |] eqn:Em; [|done..]. injection Hp as <- <-.
      destruct (keeps_step handles (Act m q) (inner s) (q x) b') as [Hk1 Hk2]; [done|cbn; by rewrite Em|].
      eexists _, _. eapply (update (_, _) bs ls i _ _ _ _ _ (Running o0 (q x)) (a, 0) HI); cbn [fst snd]; try done.
      * eapply reach_step; [exact Hr|]. by eapply step_run.
      * by apply a_use.
      * sums.
      * cbn. by rewrite Hk1.
    + pose proof (present _ _ _ _ _ _ HI Hl) as Hpr. cbn [fst] in Hpr. cbn in Hp. unfold inc_ref in Hp. destruct (count_of a s) as [|k] eqn:Ek; [done|]. injection Hp as <- <-.
      eexists _, _. eapply (update (_, _) bs ls i _ _ _ _ _ Idle (a, 2) HI); cbn [fst snd]; try done; [by rewrite (list_insert_id bs)|apply a_copied|sums|].
      intros y. rewrite count_set. cbn [inner set_count]. rewrite <-Hin. case_decide; subst; lia.
    + done.
    + pose proof (present _ _ _ _ _ _ HI Hl) as Hpr. cbn [fst] in Hpr. cbn in Hp. unfold dec_ref in Hp. destruct (count_of a s) as [|[|k]] eqn:Ek; [done| |].
      * destruct (calls L i (kill a) (inner s)) as [b'|] eqn:Ec; [|done]. injection Hp as <- <-.
        eexists _, _. eapply (update (_, _) bs ls i _ _ _ _ _ (Running (kill a) (code L i (kill a))) (a, 0) HI); cbn [fst snd]; try done.
        -- eapply reach_step; [exact Hr|]. by apply step_call.
        -- apply a_last. apply Hcode.
        -- sums.
        -- intros y. rewrite count_set. cbn [inner set_count set_inner]. rewrite (Hkill _ _ _ _ Ec y), <-Hin. case_decide; [subst|change (count_of y (set_inner b' s)) with (count_of y s)]; naive_solver lia.
      * injection Hp as <- <-. eexists _, _. eapply (update (_, _) bs ls i _ _ _ _ _ Idle (a, 0) HI); cbn [fst snd]; try done; [by rewrite (list_insert_id bs)|apply a_dropped|sums|].
        intros y. rewrite count_set. cbn [inner set_count]. rewrite <-Hin. case_decide; subst; lia.
    + rewrite on_inner_step in Hp. destruct p0 as [r|X m q]; [done|]. destruct (m (inner s)) as [[x b']| |] eqn:Em; [|done..]. injection Hp as <- <-.
      destruct (keeps_step handles (Act m q) (inner s) (q x) b') as [Hk1 Hk2]; [done|cbn; by rewrite Em|].
      eexists _, _. eapply (update (_, _) bs ls i _ _ _ _ _ (Running (kill a) (q x)) (a, 0) HI); cbn [fst snd]; try done.
      * eapply reach_step; [exact Hr|]. by eapply step_run.
      * by apply a_last.
      * sums.
      * cbn. by rewrite Hk1.
    + done.
  - (* an answer *)
    remember (Ret r) as p eqn:Ep. revert Ep. inversion Ha; subst; intros Ep.
    + apply on_inner_ret in Ep as (r'&->&->). cbn [returns shared_handles].
      assert (reachable L s0 n (returns L i o0 r' (inner s), <[i := Idle]> bs)) as Hr'. { eapply reach_step; [exact Hr|]. by apply step_return. }
      destruct (makes o0 r') as [y|] eqn:Em.
      * pose proof (Hnew _ i _ _ _ Hr Hb ltac:(done) Em) as Hny. cbn in Hny. rewrite <-Hin in Hny. pose proof (Hcnt y) as Hy.
        eexists _, _. eapply (update (_, _) bs ls i _ _ _ _ _ Idle (a, 0) HI); cbn [fst snd]; try done; [apply a_idle| |].
        -- sums.
        -- intros z. cbn [inner set_refs set_count set_inner]. rewrite Hret by done. rewrite <-Hin, Em, count_refs, count_set. case_decide; [subst; naive_solver lia|]. rewrite count_inner. naive_solver.
      * eexists _, _. eapply (update (_, _) bs ls i _ _ _ _ _ Idle (a, 0) HI); cbn [fst snd]; try done; [apply a_idle|sums|].
        intros z. cbn [inner set_inner]. rewrite Hret by done. rewrite <-Hin, Em, count_inner. naive_solver.
    + done.
    + injection Ep as <-. eexists _, _. eapply (update (_, _) bs ls i _ _ _ _ _ Idle (a, 0) HI); cbn [fst snd]; try done; [by rewrite (list_insert_id bs)|apply a_idle|].
      cbn [returns shared_handles]. sums.
    + done.
    + apply on_inner_ret in Ep as (r'&->&->). eexists _, _. eapply (update (_, _) bs ls i _ _ _ _ _ Idle (a, 0) HI); cbn [fst snd]; try done; [|apply a_idle|cbn [returns shared_handles]; sums|].
      * eapply reach_step; [exact Hr|]. by apply step_return.
      * cbn. by rewrite Hretk.
    + injection Ep as <-. eexists _, _. eapply (update (_, _) bs ls i _ _ _ _ _ Idle (a, 0) HI); cbn [fst snd]; try done; [by rewrite (list_insert_id bs)|apply a_idle|cbn [returns shared_handles]; sums].
Qed.
Lemma none_yet (a : nat) : (∅ : gmap nat nat) !!! a = 0.
Proof. by rewrite lookup_total_alt, lookup_empty. Qed.
Lemma reach_inv c : reachable sys (unshared s0) n c -> exists bs ls, inv c bs ls.
Proof.
  induction 1 as [|c c' _ IH Hs]; [|by eapply step_inv]. exists (replicate n Idle), (replicate n (0, 0)). split; cbn [fst snd unshared inner]; rewrite ?replicate_length; try done.
  - apply reach_start.
  - intros i t b l Ht Hb Hl. apply lookup_replicate in Ht as [-> _], Hb as [-> _], Hl as [-> _]. apply a_idle.
  - intros a. rewrite lent_zero by (intros i l Hl; by apply lookup_replicate in Hl as [-> _]). unfold count_of, refs_to. cbn. by rewrite none_yet.
  - intros a. unfold count_of. cbn. rewrite none_yet, Hstart, elem_of_nil. split; [intros H; by apply Nat.lt_irrefl in H|done].
Qed.

(** What the rest of the system does is an execution of L. *)
Lemma simulated c : reachable sys (unshared s0) n c -> exists bs, reachable L s0 n (inner c.1, bs) /\
  (forall i b, bs !! i = Some b -> exists t, c.2 !! i = Some t /\ (t = Idle -> b = Idle) /\ forall o, t <> Idle -> forall p, b = Running o p -> (exists q, t = Running (HUse o) q) \/ exists a q, t = Running (HDrop a) q /\ o = kill a).
Proof.
  intros Hr. destruct (reach_inv _ Hr) as (bs&ls&HI). exists bs. split; [exact (i_base _ _ _ HI)|]. intros i b Hb. destruct (thread_back _ _ _ _ _ HI Hb) as (t&l&Ht&_&Ha). exists t. split; [done|].
  inversion Ha; subst; naive_solver.
Qed.
Context (Hsafe : forall c i, reachable L s0 n c -> ~ crashed c i).
Lemma no_crash c i : reachable sys (unshared s0) n c -> ~ crashed c i.
Proof.
  intros Hr (o&X&m&k&Hi&Hm). destruct (reach_inv _ Hr) as (bs&ls&HI). destruct (thread_of _ _ _ _ _ HI Hi) as (b&l&Hb&Hl&Ha).
  assert (pstep (Act m k) c.1 = Some Undef) as Hp by (cbn; by rewrite Hm). clear Hm. revert Hp Ha Hi. generalize (Act m k). clear X m k. intros p Hp Ha Hi.
  pose proof (i_base _ _ _ HI) as Hbase. pose proof (i_in _ _ _ HI) as Hin. inversion Ha; subst; try done.
  - rewrite on_inner_step in Hp. destruct p0 as [r|X m q]; [done|]. destruct (m (inner c.1)) as [[x b']| |] eqn:Em; [done| |done]. apply (Hsafe _ i Hbase). by exists o0, X, m, q.
  - pose proof (present _ _ _ _ _ _ HI Hl) as Hpr. cbn in Hp. unfold inc_ref in Hp. destruct (count_of a c.1); [lia|done].
  - pose proof (present _ _ _ _ _ _ HI Hl) as Hpr. cbn in Hp. unfold dec_ref in Hp. destruct (count_of a c.1) as [|[|ct]] eqn:Ect; [lia| |done].
    destruct (Hmay i a (inner c.1)) as [s' Hs']; [apply Hin; lia|]. by rewrite Hs' in Hp.
  - rewrite on_inner_step in Hp. destruct p0 as [r|X m q]; [done|]. destruct (m (inner c.1)) as [[x b']| |] eqn:Em; [done| |done]. apply (Hsafe _ i Hbase). by exists (kill a), X, m, q.
Qed.
(** Waiting. *)
Lemma waits c i : reachable sys (unshared s0) n c -> blocked c i ->
  exists bs, reachable L s0 n (inner c.1, bs) /\ blocked (inner c.1, bs) i /\
    forall j o p, bs !! j = Some (Running o p) -> ~ blocked (inner c.1, bs) j -> exists o' (p' : prog HS (option R)), c.2 !! j = Some (Running o' p') /\ ~ blocked c j.
Proof.
  intros Hr Hw. destruct (reach_inv _ Hr) as (bs&ls&HI). exists bs. split; [exact (i_base _ _ _ HI)|].
  assert (forall j o p, c.2 !! j = Some (Running o p) -> pstep p c.1 = Some NoFuel -> blocked (inner c.1, bs) j) as Hdown.
  { intros j o p Hj Hp. destruct (thread_of _ _ _ _ _ HI Hj) as (b&l&Hb&Hl&Ha). inversion Ha; subst; try done.
    - rewrite on_inner_step in Hp. destruct p0 as [r|X m q]; [done|]. destruct (m (inner c.1)) as [[x b']| |] eqn:Em; [done..|]. by exists o0, X, m, q.
    - cbn in Hp. unfold inc_ref in Hp. by destruct (count_of a c.1).
    - cbn in Hp. unfold dec_ref in Hp. destruct (count_of a c.1) as [|[|]]; [done| |done]. by destruct (calls L j (kill a) (inner c.1)).
    - rewrite on_inner_step in Hp. destruct p0 as [r|X m q]; [done|]. destruct (m (inner c.1)) as [[x b']| |] eqn:Em; [done..|]. by exists (kill a), X, m, q. }
  assert (forall j, blocked c j -> exists o p, c.2 !! j = Some (Running o p) /\ pstep p c.1 = Some NoFuel) as Hb.
  { intros j (o&X&m&k&Hj&Hm). exists o, (Act m k). split; [done|]. cbn. by rewrite Hm. }
  split. { destruct (Hb _ Hw) as (o&p&Hi&Hp). by eapply Hdown. }
  intros j o p Hj Hn. destruct (thread_back _ _ _ _ _ HI Hj) as (t&l&Ht&Hl&Ha). inversion Ha; subst; eexists _, _; (split; [exact Ht|]); intros Hbj; destruct (Hb _ Hbj) as (o'&p'&Hj'&Hp'); apply Hn; by eapply Hdown.
Qed.
(** A struct is in the hands of the users of L exactly as long as there are references to it, in the hands of its users here or of calls that copy one or give one up. *)
Lemma held c a : reachable sys (unshared s0) n c -> (a ∈ handles (inner c.1) <-> 0 < count_of a c.1) /\ refs_to a c.1 <= count_of a c.1 /\
  (forall i q, c.2 !! i = Some (Running (HCopy a) q) -> refs_to a c.1 < count_of a c.1).
Proof.
  intros Hr. destruct (reach_inv _ Hr) as (bs&ls&HI). pose proof (i_count _ _ _ HI a) as Hc. split; [by rewrite (i_in _ _ _ HI)|]. split; [lia|].
  intros i q Hi. destruct (thread_of _ _ _ _ _ HI Hi) as (b&l&Hb&Hl&Ha). pose proof (lent_in a _ _ _ Hl) as H. inversion Ha; subst; rewrite lent_self in H; lia.
Qed.
Lemma when_idle c : reachable sys (unshared s0) n c -> (forall j t, c.2 !! j = Some t -> t = Idle) ->
  (forall a, count_of a c.1 = refs_to a c.1 /\ (a ∈ handles (inner c.1) <-> 0 < refs_to a c.1)) /\ exists bs, reachable L s0 n (inner c.1, bs) /\ forall j b, bs !! j = Some b -> b = Idle.
Proof.
  intros Hr Hid. destruct (reach_inv _ Hr) as (bs&ls&HI).
  assert (forall j l, ls !! j = Some l -> l.2 = 0 /\ bs !! j = Some Idle) as Hls.
  { intros j l Hl. pose proof (lookup_lt_Some _ _ _ Hl) as Hlt. rewrite (i_ll _ _ _ HI) in Hlt. destruct (lookup_lt_is_Some_2 _ _ Hlt) as [t Ht]. destruct (thread_of _ _ _ _ _ HI Ht) as (b&l'&Hb&Hl'&Ha).
    rewrite (Hid _ _ Ht) in Ha. inversion Ha; subst. by simplify_eq. }
  split.
  - intros a. pose proof (i_count _ _ _ HI a) as Hc. rewrite lent_zero in Hc by (intros j l Hl; by apply Hls in Hl as [-> _]). split; [lia|]. rewrite <-(i_in _ _ _ HI). lia.
  - exists bs. split; [exact (i_base _ _ _ HI)|]. intros j b Hb. destruct (thread_back _ _ _ _ _ HI Hb) as (t&l&Ht&Hl&Ha). destruct (Hls _ _ Hl) as [_ Hb']. congruence.
Qed.
End hrefs.
