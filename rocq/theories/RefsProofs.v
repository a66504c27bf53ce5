(** Proofs about RefsModel.v: every execution with counted references is one of the system without them, in which the dispose function is called once no call is running. *)
From Verif Require Import Common Prog Conc ConcLists RefsModel.

(** One action of a program; None: it has answered. *)
Definition pstep {S A} (p : prog S A) (s : S) : option (outcome (prog S A * S)) :=
  match p with
  | Ret _ => None
  | Act m k => Some (match m s with Done (x, s') => Done (k x, s') | Undef => Undef | NoFuel => NoFuel end)
  end.
Lemma pstep_inv {S A} (p : prog S A) s p' s' : pstep p s = Some (Done (p', s')) -> exists X (m : M S X) k x, p = Act m k /\ m s = Done (x, s') /\ p' = k x.
Proof. destruct p as [|X m k]; [done|]. cbn. destruct (m s) as [[x t]| |] eqn:E; [|done..]. intros [= <- <-]. eauto 10. Qed.
Lemma pstep_undef {S A} (p : prog S A) s : pstep p s = Some Undef -> exists X (m : M S X) k, p = Act m k /\ m s = Undef.
Proof. destruct p as [|X m k]; [done|]. cbn. destruct (m s) as [[x t]| |] eqn:E; [done| |done]. eauto. Qed.
Lemma pstep_wait {S A} (p : prog S A) s : pstep p s = Some NoFuel -> exists X (m : M S X) k, p = Act m k /\ m s = NoFuel.
Proof. destruct p as [|X m k]; [done|]. cbn. destruct (m s) as [[x t]| |] eqn:E; [done..|]. eauto. Qed.

(** closed: the dispose function has been called. *)
Definition kept_by {S R B} (f : S -> B) (W : prog S R -> Prop) (p : prog S R) : Prop :=
  match p with Ret _ => True | Act m k => forall s x s', m s = Done (x, s') -> f s' = f s /\ W (k x) end.
(** No action of p changes f, until it comes to a program in A, if ever. *)
Definition keeps_to {S R B} (f : S -> B) (A : prog S R -> Prop) (p : prog S R) : Prop := exists W : prog S R -> Prop, W p /\ forall p, W p -> A p \/ kept_by f W p.
Definition keeps {S R B} (f : S -> B) (p : prog S R) : Prop := keeps_to f (fun _ => False) p.
Section keeps.
Context {S R B : Type} (f : S -> B) (A : prog S R -> Prop).
Lemma kept_mono (W W' : prog S R -> Prop) p : (forall p, W p -> W' p) -> kept_by f W p -> kept_by f W' p.
Proof. destruct p as [|X m k]; [done|]. intros H Hk s x s' Hm. destruct (Hk _ _ _ Hm). auto. Qed.
Lemma keeps_unfold p : keeps_to f A p -> A p \/ kept_by f (keeps_to f A) p.
Proof. intros (W&Hp&HW). destruct (HW _ Hp) as [|Hk]; [by left|right]. revert Hk. apply kept_mono. intros q Hq. by exists W. Qed.
Lemma keeps_fold p : A p \/ kept_by f (keeps_to f A) p -> keeps_to f A p.
Proof.
  intros H. exists (fun p => A p \/ kept_by f (keeps_to f A) p). split; [done|]. clear p H. intros p [H|H]; [by left|right]. revert H. apply kept_mono. intros q. apply keeps_unfold.
Qed.
Lemma keeps_ret r : keeps_to f A (Ret r).
Proof. apply keeps_fold. by right. Qed.
Lemma keeps_act X (m : M S X) k : (forall s x s', m s = Done (x, s') -> f s' = f s) -> (forall x, keeps_to f A (k x)) -> keeps_to f A (Act m k).
Proof. intros H1 H2. apply keeps_fold. right. intros s x s' Hm. eauto. Qed.
Lemma keeps_again p : A p -> keeps_to f A p.
Proof. intros H. apply keeps_fold. by left. Qed.
Lemma keeps_loop p : (forall p, A p -> kept_by f (keeps_to f A) p) -> keeps_to f A p -> keeps f p.
Proof. intros HA H. exists (keeps_to f A). split; [done|]. clear p H. intros p H. right. apply keeps_unfold in H as [H|H]; auto. Qed.
End keeps.
Lemma keeps_step {S R B} (f : S -> B) (p : prog S R) s p' s' : keeps f p -> pstep p s = Some (Done (p', s')) -> f s' = f s /\ keeps f p'.
Proof. intros Hp Hs. apply pstep_inv in Hs as (X&m&k&x&->&Hm&->). apply keeps_unfold in Hp as [[]|Hp]. by apply Hp in Hm. Qed.
Lemma keeps_map {S R B C} (f : S -> B) (g : B -> C) (p : prog S R) : keeps f p -> keeps (fun s => g (f s)) p.
Proof.
  intros Hp. exists (keeps f). split; [done|]. clear p Hp. intros p Hp. right. apply keeps_unfold in Hp as [[]|Hp]. destruct p as [|X m k]; [done|]. intros s x s' Hm. destruct (Hp _ _ _ Hm) as [E ?]. by rewrite E.
Qed.

Section refs.
Context {S O R : Type} (L : system S O R) (free : O) (uses : O -> bool) (s0 : S) (n : nat) (closed : S -> bool).
Context (Hstart : closed s0 = false).
Context (Hcall : forall i o s s', uses o = true -> calls L i o s = Some s' -> closed s' = closed s).
Context (Hclose : forall i s s', calls L i free s = Some s' -> closed s' = true).
Context (Hret : forall i o r s, closed (returns L i o r s) = closed s).
Context (Hcode : forall i o, uses o = true \/ o = free -> keeps closed (code L i o)).
Context (Hfree : forall i c, reachable L s0 n c -> closed c.1 = false -> (forall j t, c.2 !! j = Some t -> t = Idle) -> is_Some (calls L i free c.1)).
Notation RS := (counted_state S).
Notation sys := (counted L free uses).
Notation RT := (Conc.thread RS (rop O) (option R)).
Notation BT := (Conc.thread S O R).
Notation answer := (fun r : R => Ret (Some r) : prog RS (option R)).

(** A thread, the thread of L that does the same, the references that it has been lent or has made, and whether it is disposing of the struct. *)
Inductive alike (i : nat) : RT -> BT -> nat * bool -> Prop :=
| a_idle : alike i Idle Idle (0, false)
| a_use o p : uses o = true -> keeps closed p -> alike i (Running (Use o) (on_struct p answer)) (Running o p) (1, false)
| a_copy : alike i (Running Copy copy_code) Idle (1, false)
| a_copied : alike i (Running Copy (Ret None)) Idle (2, false)
| a_drop : alike i (Running Drop (drop_code L free i)) Idle (1, false)
| a_last p : keeps closed p -> alike i (Running Drop (on_struct p (dispose L free i))) (Running free p) (0, true)
| a_dropped : alike i (Running Drop (Ret None)) Idle (0, false).
Definition total (ls : list (nat * bool)) : nat := sum_list ls.*1.
Lemma total_upd ls i t t' : ls !! i = Some t -> total (<[i := t']> ls) + t.1 = total ls + t'.1.
Proof. unfold total. revert i. induction ls as [|x ls IH]; intros [|i] Hi; simplify_eq/=; [lia|]. specialize (IH _ Hi). lia. Qed.
Lemma total_in ls i t : ls !! i = Some t -> t.1 <= total ls.
Proof. unfold total. revert i. induction ls as [|x ls IH]; intros [|i] Hi; simplify_eq/=; [lia|]. specialize (IH _ Hi). lia. Qed.
Lemma total_two ls i j t u : ls !! i = Some t -> ls !! j = Some u -> i <> j -> t.1 + u.1 <= total ls.
Proof.
  intros Hi Hj Hne. pose proof (total_upd ls i t (0, false) Hi) as E. assert (<[i := (0, false)]> ls !! j = Some u) as H by (by rewrite list_lookup_insert_ne).
  apply total_in in H. cbn in E. lia.
Qed.
Lemma total_zero k : total (replicate k (0, false)) = 0.
Proof. unfold total. induction k; [done|]. done. Qed.

Record inv (c : RS * list RT) (bs : list BT) (ls : list (nat * bool)) : Prop := {
  i_base : reachable L s0 n (base c.1, bs);
  i_lb : length bs = length c.2;
  i_ll : length ls = length c.2;
  i_thr : forall i t b l, c.2 !! i = Some t -> bs !! i = Some b -> ls !! i = Some l -> alike i t b l;
  i_count : count c.1 = hands c.1 + total ls;
  i_last : cnt snd ls = if bool_decide (count c.1 = 0) && negb (freed c.1) then 1 else 0;
  i_freed : freed c.1 = true -> count c.1 = 0;
  i_closed : closed (base c.1) = bool_decide (count c.1 = 0);
}.

Lemma on_struct_Ret {A} r (k : R -> prog RS A) : on_struct (Ret r) k = k r.
Proof. rewrite (frob_eq (on_struct _ _)). simpl. by destruct (k r). Qed.
Lemma on_struct_Act {A} X (m : M S X) q (k : R -> prog RS A) : on_struct (Act m q) k = Act (touch m) (fun x => on_struct (q x) k).
Proof. by rewrite (frob_eq (on_struct (Act m q) k)). Qed.
Lemma on_struct_step {A} (p : prog S R) (k : R -> prog RS A) s : freed s = false ->
  pstep (on_struct p k) s = match p with
                            | Ret r => pstep (k r) s
                            | Act m q => Some (match m (base s) with Done (x, b) => Done (on_struct (q x) k, Counted b (count s) (hands s) false) | Undef => Undef | NoFuel => NoFuel end)
                            end.
Proof.
  intros Hf. destruct p as [r|X m q]; [by rewrite on_struct_Ret|]. rewrite on_struct_Act. cbn [pstep]. unfold touch. rewrite Hf. by destruct (m (base s)) as [[x b]| |].
Qed.
Lemma on_struct_ret {A} (p : prog S R) (k : R -> prog RS A) y : on_struct p k = Ret y -> exists r, p = Ret r /\ k r = Ret y.
Proof. destruct p as [r|X m q]; [rewrite on_struct_Ret; eauto|by rewrite on_struct_Act]. Qed.

(** The references of a thread that is using the struct, or disposing of it: the struct is there. *)
Lemma present c bs ls i l : inv c bs ls -> ls !! i = Some l -> 0 < l.1 \/ l.2 = true -> freed c.1 = false.
Proof.
  intros HI Hl [Hp|Hp]; destruct (freed c.1) eqn:E; try done; exfalso.
  - pose proof (i_freed _ _ _ HI E). pose proof (i_count _ _ _ HI). pose proof (total_in _ _ _ Hl). lia.
  - pose proof (i_last _ _ _ HI) as H. rewrite E, andb_false_r in H. pose proof (cnt_pos snd ls i l Hl Hp). lia.
Qed.

(** One thread changes. *)
Lemma update c bs ls i t b l (s' : RS) t' b' l' : inv c bs ls -> c.2 !! i = Some t -> bs !! i = Some b -> ls !! i = Some l ->
  reachable L s0 n (base s', <[i := b']> bs) -> alike i t' b' l' ->
  count s' + hands c.1 + l.1 = hands s' + count c.1 + l'.1 ->
  Nat.b2n l'.2 + (if bool_decide (count c.1 = 0) && negb (freed c.1) then 1 else 0) = Nat.b2n l.2 + (if bool_decide (count s' = 0) && negb (freed s') then 1 else 0) ->
  (freed s' = true -> count s' = 0) -> closed (base s') = bool_decide (count s' = 0) ->
  inv (s', <[i := t']> c.2) (<[i := b']> bs) (<[i := l']> ls).
Proof.
  intros HI Ht Hb Hl Hr Ha Hc Hlast Hf Hcl. split; cbn [fst snd]; try done.
  - rewrite !insert_length. exact (i_lb _ _ _ HI).
  - rewrite !insert_length. exact (i_ll _ _ _ HI).
  - intros j tj bj lj Htj Hbj Hlj. apply upd_some in Htj as [[-> ->]|[Hj Htj]]; apply upd_some in Hbj as [[? ->]|[? Hbj]]; try done; apply upd_some in Hlj as [[? ->]|[? Hlj]]; try done.
    by eapply (i_thr _ _ _ HI).
  - pose proof (total_upd ls i l l' Hl). pose proof (i_count _ _ _ HI). lia.
  - pose proof (cnt_upd snd ls i l l' Hl) as E. pose proof (i_last _ _ _ HI). lia.
Qed.

Lemma step_inv c c' : (exists bs ls, inv c bs ls) -> step sys c c' -> exists bs ls, inv c' bs ls.
Proof.
  intros (bs&ls&HI) Hs.
  assert (forall i t, c.2 !! i = Some t -> exists b l, bs !! i = Some b /\ ls !! i = Some l /\ alike i t b l) as Hat.
  { intros i t Ht. pose proof (lookup_lt_Some _ _ _ Ht) as Hlt.
    destruct (lookup_lt_is_Some_2 bs i) as [b Hb]; [by rewrite (i_lb _ _ _ HI)|]. destruct (lookup_lt_is_Some_2 ls i) as [l Hl]; [by rewrite (i_ll _ _ _ HI)|].
    exists b, l. split_and!; try done. by eapply (i_thr _ _ _ HI). }
  pose proof (i_base _ _ _ HI) as Hr. pose proof (i_count _ _ _ HI) as Hcnt. pose proof (i_closed _ _ _ HI) as Hcl. pose proof (i_freed _ _ _ HI) as Hfr.
  destruct Hs as [s ts i o s' Hi Hc|s ts i o X m k x s' Hi Hm|s ts i o r Hi|s ts s' []]; cbn [fst snd] in *; destruct (Hat _ _ Hi) as (b&l&Hb&Hl&Ha).
  - (* a call *)
    inversion Ha; subst. destruct s as [bse ct hd fr]. cbn in Hc, Hr, Hcnt, Hcl, Hfr. destruct hd as [|hd]; [done|].
    destruct o as [o| |].
    + destruct (uses o) eqn:Eu; [|done]. destruct (calls L i o bse) as [b'|] eqn:Ec; [|done]. injection Hc as <-.
      eexists _, _. eapply (update (_, _) bs ls i Idle Idle (0, false) _ _ (Running o (code L i o)) (1, false) HI); cbn; try done; try lia.
      * eapply reach_step; [exact Hr|]. by apply step_call.
      * apply a_use; [done|]. apply Hcode. by left.
      * by rewrite (Hcall _ _ _ _ Eu Ec).
    + injection Hc as <-. eexists _, _. eapply (update (_, _) bs ls i Idle Idle (0, false) _ _ Idle (1, false) HI); cbn; try done; try lia; [|apply a_copy]. by rewrite (list_insert_id bs).
    + injection Hc as <-. eexists _, _. eapply (update (_, _) bs ls i Idle Idle (0, false) _ _ Idle (1, false) HI); cbn; try done; try lia; [|apply a_drop]. by rewrite (list_insert_id bs).
  - (* an action *)
    assert (pstep (Act m k) s = Some (Done (k x, s'))) as Hp by (cbn; by rewrite Hm). clear Hm. revert Hp Ha Hi. generalize (k x). generalize (Act m k). clear X m k x. intros p p' Hp Ha Hi.
    pose proof (present _ _ _ i l HI Hl) as Hpres. cbn [fst] in Hpres. inversion Ha; subst; cbn [fst snd] in Hpres.
    + rewrite on_struct_step in Hp by (apply Hpres; lia). destruct p0 as [r|X m q]; [done|]. destruct (m (base s)) as [[x b']| |] eqn:Em; [|done..]. injection Hp as <- <-.
      assert (freed s = false) as Hnf by (apply Hpres; lia).
      destruct (keeps_step closed (Act m q) (base s) (q x) b') as [Hk1 Hk2]; [done|cbn; by rewrite Em|].
      eexists _, _. eapply (update (_, _) bs ls i _ _ (1, false) _ _ (Running o0 (q x)) (1, false) HI); cbn; try done; try lia.
      * eapply reach_step; [exact Hr|]. by eapply step_run.
      * by apply a_use.
      * by rewrite Hnf.
    + cbn in Hp. unfold inc_ref in Hp. rewrite Hpres in Hp by lia. injection Hp as <- <-. assert (freed s = false) as Hnf by (apply Hpres; lia).
      pose proof (total_in _ _ _ Hl) as Ht. cbn in Ht.
      eexists _, _. eapply (update (_, _) bs ls i _ _ (1, false) _ _ Idle (2, false) HI); cbn; try done; try lia; [by rewrite (list_insert_id bs)|apply a_copied| |].
      * rewrite bool_decide_eq_false_2 by lia. done.
      * rewrite Hcl. by rewrite bool_decide_eq_false_2 by lia.
    + done.
    + cbn in Hp. unfold dec_ref in Hp. assert (freed s = false) as Hnf by (apply Hpres; lia). rewrite Hnf in Hp. pose proof (total_in _ _ _ Hl) as Ht. cbn in Ht.
      destruct (count s) as [|[|ct]] eqn:Ect; [done| |].
      * destruct (calls L i free (base s)) as [b'|] eqn:Ec; [|done]. injection Hp as <- <-.
        eexists _, _. eapply (update (_, _) bs ls i _ _ (1, false) _ _ (Running free (code L i free)) (0, true) HI); cbn; try done; try lia.
        -- eapply reach_step; [exact Hr|]. by apply step_call.
        -- apply a_last. apply Hcode. by right.
        -- rewrite Ect. done.
        -- by rewrite (Hclose _ _ _ Ec).
      * injection Hp as <- <-. eexists _, _. eapply (update (_, _) bs ls i _ _ (1, false) _ _ Idle (0, false) HI); cbn; try done; try lia; [by rewrite (list_insert_id bs)|apply a_dropped|]. by rewrite Ect.
    + assert (freed s = false) as Hnf by (apply Hpres; by right). rewrite on_struct_step in Hp by done. destruct p0 as [r|X m q].
      * cbn in Hp. unfold free_struct in Hp. rewrite Hnf in Hp. injection Hp as <- <-. pose proof (i_last _ _ _ HI) as Hlast. cbn in Hlast. pose proof (cnt_pos snd ls i _ Hl eq_refl) as Hpos.
        assert (count s = 0) as Hz. { rewrite Hlast in Hpos. case_bool_decide; [done|]. cbn in Hpos. lia. }
        eexists _, _. eapply (update (_, _) bs ls i _ _ (0, true) _ _ Idle (0, false) HI); cbn; try done; try lia.
        -- eapply reach_step; [exact Hr|]. by apply step_return.
        -- apply a_dropped.
        -- rewrite Hz, Hnf. done.
        -- by rewrite Hret.
      * destruct (m (base s)) as [[x b']| |] eqn:Em; [|done..]. injection Hp as <- <-.
        destruct (keeps_step closed (Act m q) (base s) (q x) b') as [Hk1 Hk2]; [done|cbn; by rewrite Em|].
        eexists _, _. eapply (update (_, _) bs ls i _ _ (0, true) _ _ (Running free (q x)) (0, true) HI); cbn; try done; try lia.
        -- eapply reach_step; [exact Hr|]. by eapply step_run.
        -- by apply a_last.
        -- by rewrite Hnf.
    + done.
  - (* an answer *)
    remember (Ret r) as p eqn:Ep. revert Ep. inversion Ha; subst; intros Ep.
    + apply on_struct_ret in Ep as (r'&->&[= <-]). eexists _, _. eapply (update (_, _) bs ls i _ _ (1, false) _ _ Idle (0, false) HI); cbn; try done; try lia.
      * eapply reach_step; [exact Hr|]. by apply step_return.
      * apply a_idle.
      * by rewrite Hret.
    + done.
    + injection Ep as <-. eexists _, _. eapply (update (_, _) bs ls i _ _ (2, false) _ _ Idle (0, false) HI); cbn; try done; try lia; [by rewrite (list_insert_id bs)|apply a_idle].
    + done.
    + apply on_struct_ret in Ep as (r'&->&Ek). done.
    + injection Ep as <-. eexists _, _. eapply (update (_, _) bs ls i _ _ (0, false) _ _ Idle (0, false) HI); cbn; try done; try lia; [by rewrite (list_insert_id bs)|apply a_idle].
Qed.
Lemma reach_inv c : reachable sys (made s0) n c -> exists bs ls, inv c bs ls.
Proof.
  induction 1 as [|c c' _ IH Hs]; [|by eapply step_inv]. exists (replicate n Idle), (replicate n (0, false)). split; cbn [fst snd made base count hands freed]; rewrite ?replicate_length; try done.
  - apply reach_start.
  - intros i t b l Ht Hb Hl. apply lookup_replicate in Ht as [-> _], Hb as [-> _], Hl as [-> _]. apply a_idle.
  - by rewrite total_zero.
  - by rewrite cnt_replicate.
Qed.

Lemma simulated c : reachable sys (made s0) n c -> exists bs, reachable L s0 n (base c.1, bs).
Proof. intros Hr. destruct (reach_inv _ Hr) as (bs&ls&HI). exists bs. exact (i_base _ _ _ HI). Qed.

Lemma thread_of c bs ls i t : inv c bs ls -> c.2 !! i = Some t -> exists b l, bs !! i = Some b /\ ls !! i = Some l /\ alike i t b l.
Proof.
  intros HI Ht. pose proof (lookup_lt_Some _ _ _ Ht) as Hlt.
  destruct (lookup_lt_is_Some_2 bs i) as [b Hb]; [by rewrite (i_lb _ _ _ HI)|]. destruct (lookup_lt_is_Some_2 ls i) as [l Hl]; [by rewrite (i_ll _ _ _ HI)|].
  exists b, l. split_and!; try done. by eapply (i_thr _ _ _ HI).
Qed.
Lemma thread_back c bs ls i b : inv c bs ls -> bs !! i = Some b -> exists t l, c.2 !! i = Some t /\ ls !! i = Some l /\ alike i t b l.
Proof.
  intros HI Hb. pose proof (lookup_lt_Some _ _ _ Hb) as Hlt.
  destruct (lookup_lt_is_Some_2 c.2 i) as [t Ht]; [by rewrite <-(i_lb _ _ _ HI)|]. destruct (thread_of _ _ _ _ _ HI Ht) as (b'&l&Hb'&Hl&Ha). simplify_eq. eauto.
Qed.

(** The thread that gives up the last reference: nobody else is in a call. *)
Lemma last_alone c bs ls i : inv c bs ls -> ls !! i = Some (1, false) -> bs !! i = Some Idle -> count c.1 = 1 -> forall j b, bs !! j = Some b -> b = Idle.
Proof.
  intros HI Hl Hb Hc j b Hj. destruct (decide (i = j)) as [<-|Hne]; [congruence|]. destruct (thread_back _ _ _ _ _ HI Hj) as (t&l&Ht&Hlj&Ha).
  pose proof (total_two _ _ _ _ _ Hl Hlj Hne) as Htot. cbn in Htot. pose proof (i_count _ _ _ HI) as Hcnt. pose proof (i_last _ _ _ HI) as Hlast. rewrite bool_decide_eq_false_2 in Hlast by lia. change (cnt snd ls = 0) in Hlast.
  inversion Ha; subst; try done; cbn in Htot; [lia|]. pose proof (cnt_pos snd ls j _ Hlj eq_refl). lia.
Qed.

Context (Hsafe : forall c i, reachable L s0 n c -> ~ crashed c i).
Lemma no_crash c i : reachable sys (made s0) n c -> ~ crashed c i.
Proof.
  intros Hr (o&X&m&k&Hi&Hm). destruct (reach_inv _ Hr) as (bs&ls&HI). destruct (thread_of _ _ _ _ _ HI Hi) as (b&l&Hb&Hl&Ha).
  assert (pstep (Act m k) c.1 = Some Undef) as Hp by (cbn; by rewrite Hm). clear Hm. revert Hp Ha Hi. generalize (Act m k). clear X m k. intros p Hp Ha Hi.
  pose proof (present _ _ _ i l HI Hl) as Hpres. pose proof (i_base _ _ _ HI) as Hbase. pose proof (total_in _ _ _ Hl) as Htot. pose proof (i_count _ _ _ HI) as Hcnt.
  inversion Ha; subst; cbn [fst snd] in *.
  - rewrite on_struct_step in Hp by (apply Hpres; lia). destruct p0 as [r|X m q]; [done|]. destruct (m (base c.1)) as [[x b']| |] eqn:Em; [done| |done]. apply (Hsafe _ i Hbase). by exists o0, X, m, q.
  - cbn in Hp. unfold inc_ref in Hp. by rewrite Hpres in Hp by lia.
  - done.
  - cbn in Hp. unfold dec_ref in Hp. rewrite Hpres in Hp by lia. destruct (count c.1) as [|[|ct]] eqn:Ect; [lia| |done].
    destruct (Hfree i _ Hbase) as [s' Hs']; cbn [fst snd].
    + rewrite (i_closed _ _ _ HI), Ect. done.
    + by eapply last_alone.
    + cbn in Hs'. by rewrite Hs' in Hp.
  - rewrite on_struct_step in Hp by (apply Hpres; by right). destruct p0 as [r|X m q].
    + cbn in Hp. unfold free_struct in Hp. by rewrite Hpres in Hp by (by right).
    + destruct (m (base c.1)) as [[x b']| |] eqn:Em; [done| |done]. apply (Hsafe _ i Hbase). by exists free, X, m, q.
  - done.
Qed.

(** Waiting. *)
Lemma waits c i : reachable sys (made s0) n c -> blocked c i ->
  exists bs, reachable L s0 n (base c.1, bs) /\ blocked (base c.1, bs) i /\
    forall j o p, bs !! j = Some (Running o p) -> ~ blocked (base c.1, bs) j -> exists o' (p' : prog RS (option R)), c.2 !! j = Some (Running o' p') /\ ~ blocked c j.
Proof.
  intros Hr Hw. destruct (reach_inv _ Hr) as (bs&ls&HI). exists bs. split; [exact (i_base _ _ _ HI)|].
  assert (forall j o p, c.2 !! j = Some (Running o p) -> pstep p c.1 = Some NoFuel -> blocked (base c.1, bs) j) as Hdown.
  { intros j o p Hj Hp. destruct (thread_of _ _ _ _ _ HI Hj) as (b&l&Hb&Hl&Ha). pose proof (present _ _ _ j l HI Hl) as Hpres. inversion Ha; subst; cbn [fst snd] in *.
    - rewrite on_struct_step in Hp by (apply Hpres; lia). destruct p0 as [r|X m q]; [done|]. destruct (m (base c.1)) as [[x b']| |] eqn:Em; [done..|]. by exists o0, X, m, q.
    - cbn in Hp. unfold inc_ref in Hp. by destruct (freed c.1).
    - done.
    - cbn in Hp. unfold dec_ref in Hp. destruct (freed c.1); [done|]. destruct (count c.1) as [|[|]]; [done| |done]. by destruct (calls L j free (base c.1)).
    - rewrite on_struct_step in Hp by (apply Hpres; by right). destruct p0 as [r|X m q].
      + cbn in Hp. unfold free_struct in Hp. by destruct (freed c.1).
      + destruct (m (base c.1)) as [[x b']| |] eqn:Em; [done..|]. by exists free, X, m, q.
    - done. }
  assert (forall j, blocked c j -> exists o p, c.2 !! j = Some (Running o p) /\ pstep p c.1 = Some NoFuel) as Hb.
  { intros j (o&X&m&k&Hj&Hm). exists o, (Act m k). split; [done|]. cbn. by rewrite Hm. }
  split. { destruct (Hb _ Hw) as (o&p&Hi&Hp). by eapply Hdown. }
  intros j o p Hj Hn. destruct (thread_back _ _ _ _ _ HI Hj) as (t&l&Ht&Hl&Ha). inversion Ha; subst; eexists _, _; (split; [exact Ht|]); intros Hbj; destruct (Hb _ Hbj) as (o'&p'&Hj'&Hp'); apply Hn; by eapply Hdown.
Qed.

Lemma freed_closed c : reachable sys (made s0) n c -> freed c.1 = true -> closed (base c.1) = true.
Proof. intros Hr Hf. destruct (reach_inv _ Hr) as (bs&ls&HI). rewrite (i_closed _ _ _ HI). apply bool_decide_eq_true_2, (i_freed _ _ _ HI Hf). Qed.
Lemma when_closed c : reachable sys (made s0) n c -> closed (base c.1) = true -> hands c.1 = 0 /\ forall j o p, c.2 !! j <> Some (Running (Use o) p).
Proof.
  intros Hr Hf. destruct (reach_inv _ Hr) as (bs&ls&HI). rewrite (i_closed _ _ _ HI) in Hf. apply bool_decide_eq_true in Hf. pose proof (i_count _ _ _ HI) as Hc. split; [lia|].
  intros j o p Hj. destruct (thread_of _ _ _ _ _ HI Hj) as (b&l&Hb&Hl&Ha). pose proof (total_in _ _ _ Hl) as Ht. inversion Ha; subst. cbn in Ht. lia.
Qed.
Lemma when_idle c : reachable sys (made s0) n c -> (forall j t, c.2 !! j = Some t -> t = Idle) ->
  count c.1 = hands c.1 /\ (freed c.1 = true <-> hands c.1 = 0) /\ closed (base c.1) = freed c.1 /\
  exists bs, reachable L s0 n (base c.1, bs) /\ forall j b, bs !! j = Some b -> b = Idle.
Proof.
  intros Hr Hid. destruct (reach_inv _ Hr) as (bs&ls&HI).
  assert (forall j l, ls !! j = Some l -> l = (0, false) /\ bs !! j = Some Idle) as Hls.
  { intros j l Hl. pose proof (lookup_lt_Some _ _ _ Hl) as Hlt. rewrite (i_ll _ _ _ HI) in Hlt. destruct (lookup_lt_is_Some_2 _ _ Hlt) as [t Ht]. destruct (thread_of _ _ _ _ _ HI Ht) as (b&l'&Hb&Hl'&Ha).
    rewrite (Hid _ _ Ht) in Ha. inversion Ha; subst. by simplify_eq. }
  assert (ls = replicate (length ls) (0, false)) as El. { symmetry. apply replicate_as_elem_of. split; [done|]. intros l Hl. apply elem_of_list_lookup in Hl as [j Hj]. by apply Hls in Hj as [-> _]. }
  pose proof (i_count _ _ _ HI) as Hc. rewrite El, total_zero in Hc. pose proof (i_last _ _ _ HI) as Hlast. rewrite El, cnt_replicate in Hlast by done. pose proof (i_freed _ _ _ HI) as Hf.
  pose proof (i_closed _ _ _ HI) as Hcl.
  split; [lia|]. split; [|split].
  - split; [intros H; specialize (Hf H); lia|]. intros Hh. destruct (freed c.1) eqn:E; [done|]. rewrite bool_decide_eq_true_2 in Hlast by lia. done.
  - rewrite Hcl. case_bool_decide as Hz; destruct (freed c.1) eqn:E; try done. specialize (Hf eq_refl). lia.
  - exists bs. split; [exact (i_base _ _ _ HI)|]. intros j b Hb. destruct (thread_back _ _ _ _ _ HI Hb) as (t&l&Ht&Hl&Ha). destruct (Hls _ _ Hl) as [_ Hb']. congruence.
Qed.
End refs.
