(** What follows for objects that are destroyed from what has been proved without destroy. *)
From Verif Require Import Common Prog Conc ConcLists Life.

Section life.
Context {S O R T : Type} (L : system S O R) (own : O -> bool) (closing : O) (body : nat -> prog S R).
Context (Inv : S -> list T -> Prop) (blk : nat -> T -> S -> Prop) (shape : O -> prog S R -> T -> Prop).
Context (out mine : T -> bool) (final : T -> Prop) (quiet : S -> Prop).
Context (idle : T -> Prop) (Hidle : forall l, idle l <-> out l = true).

(** What holds while thread i destroys: the others are in no call, except those of the object itself; when its close is done, the object is quiet. *)
Definition InvD (i : nat) (s : S) (ls : list T) : Prop :=
  Inv s ls /\ (forall j l, ls !! j = Some l -> j <> i -> out l = true \/ mine l = true) /\ (forall l, ls !! i = Some l -> final l -> quiet s).
Definition back (i : nat) (o : O) (r : R) (l : T) : Prop := forall s ls, ls !! i = Some l -> Inv s ls -> exists l', idle l' /\ Inv (returns L i o r s) (<[i := l']> ls).
Context (Hcall : forall i o s s' ls l, ls !! i = Some l -> idle l -> Inv s ls -> calls L i o s = Some s' -> exists l', Inv s' (<[i := l']> ls) /\ runs_ok L Inv idle blk shape i o (code L i o) l').
Context (Henv : forall s s' ls, Inv s ls -> env L s s' -> Inv s' ls).
Context (Hshape : forall o p l, shape o p l -> out l = false /\ mine l = own o).
Context (Hquiet : forall s ls j l, Inv s ls -> quiet s -> ls !! j = Some l -> mine l = false).
Context (Hqcall : forall i o s ls, Inv s ls -> quiet s -> own o = true -> calls L i o s = None).
Context (Hqenv : forall s s', env L s s' -> quiet s -> quiet s').
Context (Hqret : forall i r s, quiet s -> quiet (returns L i closing r s)).
Context (Hclosing : own closing = false).
Context (HcallD : forall i s s' ls l, ls !! i = Some l -> out l = true -> Inv s ls -> (forall j l, ls !! j = Some l -> out l = true \/ mine l = true) -> calls L i closing s = Some s' ->
  exists l', InvD i s' (<[i := l']> ls) /\ wp (InvD i) blk shape i closing (fun r l => final l /\ back i closing r l) (body i) l').

Notation LL := (lifetime L own closing body).
Inductive part := Plain | Closer | Freer.     (* a thread that does not destroy; that does; that has freed *)
Notation T' := (T * part)%type.
Definition counts (t : T') : bool := match t.2 with Plain => negb (out t.1) && negb (mine t.1) | _ => true end.
Definition stage (s : lived S) (ls : list T') : Prop :=
  match phase s with
  | InUse => forall j t, ls !! j = Some t -> t.2 = Plain
  | Doomed => exists i l, ls !! i = Some (l, Closer) /\ (forall j t, ls !! j = Some t -> j <> i -> t.2 = Plain /\ (out t.1 = true \/ mine t.1 = true)) /\ (final l -> quiet (base s))
  | Gone => quiet (base s) /\ forall j t, ls !! j = Some t -> (t.2 = Plain /\ out t.1 = true) \/ t.2 = Freer
  end.
Definition LInv (s : lived S) (ls : list T') : Prop := Inv (base s) ls.*1 /\ inside s = cnt counts ls /\ stage s ls.
Definition Lblk (i : nat) (t : T') (s : lived S) : Prop := t.2 <> Freer /\ blk i t.1 (base s).
Definition Lshape (o : lop O) (p : prog (lived S) R) (t : T') : Prop := match o with Use o => out t.1 = false /\ t.2 = Plain /\ mine t.1 = own o | Destroy => match t.2 with Plain => False | Closer => (forall r, p <> Ret r) | Freer => exists r, p = Ret r end end.
Notation Lidle := (fun t : T' => t.2 = Plain /\ out t.1 = true).
Notation Lruns := (runs_ok LL LInv Lidle Lblk Lshape).

Lemma within_ret r k : within (Ret r) k = k r :> prog (lived S) R.
Proof. rewrite (frob_eq (within (Ret r) k)). simpl. destruct (k r). all: reflexivity. Qed.
Lemma within_act X (m : M S X) p k : within (Act m p) k = Act (touch m) (fun x => within (p x) k) :> prog (lived S) R.
Proof. by rewrite (frob_eq (within (Act m p) k)). Qed.
Lemma fst_at (ls : list T') i t : ls !! i = Some t -> ls.*1 !! i = Some t.1.
Proof. intros Hi. by rewrite list_lookup_fmap, Hi. Qed.
Lemma fst_set (ls : list T') i t : (<[i := t]> ls).*1 = <[i := t.1]> ls.*1.
Proof. by rewrite list_fmap_insert. Qed.
Lemma set_cases (ls : list T') i t t0 j u : ls !! i = Some t0 -> <[i := t]> ls !! j = Some u -> (j = i /\ u = t) \/ (j <> i /\ ls !! j = Some u).
Proof.
  intros Hi Hj. destruct (decide (j = i)) as [->|Hne]; [|right; by rewrite list_lookup_insert_ne in Hj]. left. split; [done|]. rewrite list_lookup_insert in Hj by (by eapply lookup_lt_Some). congruence.
Qed.

(** A thread that does not destroy moves. *)
Lemma plain_move s b n ls i l l' : ls !! i = Some (l, Plain) -> out l = false -> LInv s ls -> Inv b (<[i := l']> ls.*1) -> (out l' = true \/ mine l' = mine l) ->
  (n + Nat.b2n (negb (mine l)) = inside s + Nat.b2n (counts (l', Plain))) -> LInv (Lived b (phase s) n) (<[i := (l', Plain)]> ls).
Proof.
  intros Hi Ho (HI&Hn&Hst) HI' Hm Hc. split_and!; cbn.
  - by rewrite fst_set.
  - pose proof (cnt_upd counts ls i _ (l', Plain) Hi) as H. replace (counts (l, Plain)) with (negb (mine l)) in H by (unfold counts; cbn; by rewrite Ho). lia.
  - unfold stage in *. cbn [phase base]. destruct (phase s).
    + intros j u Hj. destruct (set_cases _ _ _ _ _ _ Hi Hj) as [[-> ->]|[_ Hj']]; [done|eauto].
    + destruct Hst as (k&lk&Hk&Hot&Hq). assert (i <> k) as Hik by (intros ->; congruence). exists k, lk. rewrite list_lookup_insert_ne by done. split_and!; [done|..].
      * intros j u Hj Hjk. destruct (set_cases _ _ _ _ _ _ Hi Hj) as [[-> ->]|[_ Hj']]; [|eauto]. split; [done|]. cbn. destruct (Hot _ _ Hi Hik) as [_ [?|?]]; cbn in *; [congruence|]. destruct Hm as [|Hm]; [by left|right; congruence].
      * intros Hf. exfalso. pose proof (Hquiet _ _ _ _ HI (Hq Hf) (fst_at _ _ _ Hi)). cbn in *. destruct (Hot _ _ Hi Hik) as [_ [?|?]]; cbn in *; congruence.
    + destruct Hst as [_ Hst]. destruct (Hst _ _ Hi) as [[_ ?]|?]; cbn in *; congruence.
Qed.
Lemma use_ok i o p l : runs_ok L Inv idle blk shape i o p l -> Lruns i (Use o) (within p Ret) (l, Plain).
Proof.
  intros Hw. exists (fun p' t => exists p l, p' = within p Ret /\ t = (l, Plain) /\ runs_ok L Inv idle blk shape i o p l). split; [by eauto|]. clear p l Hw.
  intros p' t (p&l&->&->&Hw). right. apply wpa_unfold in Hw as [[]|[Hsh Hb]]. destruct (Hshape _ _ _ Hsh) as [Ho Hm]. split; [by cbn|]. destruct p as [r|X m k].
  - rewrite within_ret. intros s ls Hi HL. pose proof HL as (HI&Hn&_). destruct (Hb _ _ (fst_at _ _ _ Hi) HI) as (l'&Hl'%Hidle&HI'). exists (l', Plain). split; [done|]. cbn [returns lifetime].
    eapply (plain_move s); [exact Hi|done|done|done|by left|]. unfold counts. cbn. rewrite Hl'. cbn. pose proof (cnt_pos counts ls i _ Hi) as Hp. unfold counts in Hp at 1. cbn in Hp. rewrite Ho in Hp. cbn in Hp.
    rewrite Hm in *. destruct (own o); cbn in *; [lia|]. specialize (Hp eq_refl). lia.
  - rewrite within_act. intros s ls Hi HL. pose proof HL as (HI&Hn&Hst). specialize (Hb _ _ (fst_at _ _ _ Hi) HI). unfold touch.
    assert (phase s <> Gone) as Hal. { intros E. unfold stage in Hst. rewrite E in Hst. destruct (proj2 Hst _ _ Hi) as [[_ ?]|?]; cbn in *; congruence. }
    destruct (m (base s)) as [[x b]| |] eqn:Em; [|destruct (phase s); first [done|by split]..].
    destruct Hb as (l'&HI'&Hw). pose proof (wpa_unfold _ _ _ _ _ _ _ _ _ Hw) as [[]|[Hsh' _]]. destruct (Hshape _ _ _ Hsh') as [Ho' Hm'].
    assert (exists l'0 : T', LInv (Lived b (phase s) (inside s)) (<[i:=l'0]> ls) /\ exists p l, within (k x) Ret = within p Ret /\ l'0 = (l, Plain) /\ runs_ok L Inv idle blk shape i o p l) as Hgo.
    { exists (l', Plain). split; [|by eauto]. eapply (plain_move s); [exact Hi|done..| |]; [right; congruence|]. unfold counts. cbn. rewrite Ho', Hm', Hm. cbn. lia. }
    by destruct (phase s).
Qed.
Lemma destroy_ok i p l : wp (InvD i) blk shape i closing (fun r l => final l /\ back i closing r l) p l -> Lruns i Destroy (within p and_release) (l, Closer).
Proof.
  intros Hw. exists (fun p' t => (exists p l, p' = within p and_release /\ t = (l, Closer) /\ wp (InvD i) blk shape i closing (fun r l => final l /\ back i closing r l) p l) \/
    (exists r l, p' = Ret r /\ t = (l, Freer) /\ back i closing r l)). split; [by eauto 10|]. clear p l Hw.
  intros p' t Hw. right. destruct Hw as [(p&l&->&->&Hw)|(r&l&->&->&Hback)].
  - apply wpa_unfold in Hw as [[]|[Hsh Hb]]. destruct (Hshape _ _ _ Hsh) as [Ho Hm]. split; [by destruct p; rewrite ?within_ret, ?within_act|].
    assert (forall s ls, ls !! i = Some (l, Closer) -> LInv s ls -> phase s = Doomed /\ InvD i (base s) ls.*1 /\ (forall j t, ls !! j = Some t -> j <> i -> t.2 = Plain)) as Hd.
    { intros s ls Hi (HI&Hn&Hst). unfold stage in Hst. destruct (phase s).
      - by specialize (Hst _ _ Hi).
      - destruct Hst as (k&lk&Hk&Hot&Hq). assert (k = i) as ->. { destruct (decide (i = k)) as [|Hne]; [done|]. by destruct (Hot _ _ Hi Hne). }
        rewrite Hi in Hk. injection Hk as <-. split; [done|]. split; [|intros; by eapply Hot]. split_and!; [done|..].
        + intros j lj Hj Hne. rewrite list_lookup_fmap in Hj. destruct (ls !! j) as [u|] eqn:Eu; [|done]. cbn in Hj. injection Hj as <-. by eapply Hot.
        + intros l0 Hl0. rewrite (fst_at _ _ _ Hi) in Hl0. by injection Hl0 as <-.
      - destruct Hst as [_ Hst]. by destruct (Hst _ _ Hi) as [[? _]|?]. }
    destruct p as [r|X m k].
    + rewrite within_ret. destruct Hb as [Hf Hback]. intros s ls Hi HL. destruct (Hd _ _ Hi HL) as (Hal&HD&Hpl). destruct HL as (HI&Hn&Hst). unfold release. rewrite Hal.
      exists (l, Freer). split; [|right; by eauto]. destruct HD as (_&Hot&Hq). pose proof (Hq l (fst_at _ _ _ Hi) Hf) as Hqq. split_and!; cbn.
      * rewrite fst_set. cbn. by rewrite list_insert_id by (by apply (fst_at _ _ _ Hi)).
      * by rewrite (cnt_same counts ls i _ _ Hi).
      * split; [done|]. intros j u Hj. destruct (set_cases _ _ _ _ _ _ Hi Hj) as [[-> ->]|[Hne Hj']]; [by right|left]. split; [by eapply Hpl|].
        destruct (Hot _ _ (fst_at _ _ _ Hj') Hne) as [|Hmi]; [done|]. by rewrite (Hquiet _ _ _ _ HI Hqq (fst_at _ _ _ Hj')) in Hmi.
    + rewrite within_act. intros s ls Hi HL. destruct (Hd _ _ Hi HL) as (Hal&HD&Hpl). destruct HL as (HI&Hn&Hst). specialize (Hb _ _ (fst_at _ _ _ Hi) HD). unfold touch. rewrite Hal.
      destruct (m (base s)) as [[x b]| |] eqn:Em; [|first [done|by split]..]. destruct Hb as (l'&(HI'&Hot'&Hq')&Hw). exists (l', Closer). split; [|left; by eauto]. cbn in Hot', Hq'. split_and!; cbn.
      * by rewrite fst_set.
      * by rewrite (cnt_same counts ls i _ _ Hi).
      * exists i, l'. rewrite list_lookup_insert by (by eapply lookup_lt_Some). split_and!; [done|..].
        -- intros j u Hj Hne. rewrite list_lookup_insert_ne in Hj by done. split; [by eapply Hpl|]. eapply Hot'; [|exact Hne]. rewrite list_lookup_insert_ne by done. by apply fst_at.
        -- intros Hf. apply (Hq' l'); [|done]. rewrite list_lookup_insert; [done|]. rewrite fmap_length. by eapply lookup_lt_Some.
  - split; [by exists r|]. intros s ls Hi (HI&Hn&Hst). destruct (Hback _ _ (fst_at _ _ _ Hi) HI) as (l'&Hl'%Hidle&HI'). exists (l', Plain). split; [done|]. cbn [returns lifetime]. split_and!; cbn.
    + by rewrite fst_set.
    + pose proof (cnt_upd counts ls i _ (l', Plain) Hi) as H. unfold counts in H at 2 4. cbn in H. rewrite Hl' in H. cbn in H. lia.
    + unfold stage in *. cbn [phase base]. destruct (phase s).
      * by specialize (Hst _ _ Hi).
      * destruct Hst as (k&lk&Hk&Hot&_). assert (i <> k) as Hne by (intros ->; congruence). by destruct (Hot _ _ Hi Hne).
      * destruct Hst as [Hq Hst]. split; [by apply Hqret|]. intros j u Hj. destruct (set_cases _ _ _ _ _ _ Hi Hj) as [[-> ->]|[Hne Hj']]; [by left|by eapply Hst].
Qed.
Lemma Lcall i o s s' ls t : ls !! i = Some t -> t.2 = Plain /\ out t.1 = true -> LInv s ls -> calls LL i o s = Some s' -> exists t', LInv s' (<[i := t']> ls) /\ Lruns i o (code LL i o) t'.
Proof.
  intros Hi [Hpl Ho] (HI&Hn&Hst) Hc. destruct t as [l pt]. cbn in Hpl, Ho. subst pt. destruct o as [o|]; cbn in Hc |- *.
  - assert (exists b, calls L i o (base s) = Some b /\ ((own o = true /\ s' = Lived b (phase s) (inside s) /\ phase s <> Gone) \/ (own o = false /\ phase s = InUse /\ s' = Lived b InUse (Datatypes.S (inside s))))) as (b&Hb&Hs').
    { destruct (own o) eqn:Ew.
      - destruct (calls L i o (base s)) as [b|] eqn:E; [|done]. injection Hc as <-. exists b. split; [done|left]. split_and!; [done..|]. intros Eg. unfold stage in Hst. rewrite Eg in Hst.
        by rewrite (Hqcall i o _ _ HI (proj1 Hst) Ew) in E.
      - destruct (phase s); try done. destruct (calls L i o (base s)) as [b|] eqn:E; [|done]. injection Hc as <-. exists b. split; [done|by right]. }
    destruct (Hcall _ _ _ _ _ _ (fst_at _ _ _ Hi) (proj2 (Hidle _) Ho) HI Hb) as (l'&HI'&Hr). exists (l', Plain). split; [|by apply use_ok].
    pose proof (wpa_unfold _ _ _ _ _ _ _ _ _ Hr) as [[]|[Hsh _]]. destruct (Hshape _ _ _ Hsh) as [Ho' Hm'].
    pose proof (cnt_upd counts ls i _ (l', Plain) Hi) as Hcn. unfold counts in Hcn at 2 4. cbn in Hcn. rewrite Ho, Ho', Hm' in Hcn. cbn in Hcn.
    destruct Hs' as [(Ew&->&Hal)|(Ew&Hal&->)]; rewrite Ew in *; cbn in Hcn; split_and!; cbn.
    + by rewrite fst_set.
    + lia.
    + unfold stage in *. cbn [phase base]. destruct (phase s); [| |done].
      * intros j u Hj. destruct (set_cases _ _ _ _ _ _ Hi Hj) as [[-> ->]|[_ Hj']]; [done|eauto].
      * destruct Hst as (k&lk&Hk&Hot&Hq). assert (i <> k) as Hik by (intros ->; congruence). exists k, lk. rewrite list_lookup_insert_ne by done. split_and!; [done|..].
        -- intros j u Hj Hjk. destruct (set_cases _ _ _ _ _ _ Hi Hj) as [[-> ->]|[_ Hj']]; [|eauto]. split; [done|]. by right.
        -- intros Hf. by rewrite (Hqcall i o _ _ HI (Hq Hf) Ew) in Hb.
    + by rewrite fst_set.
    + lia.
    + unfold stage in *. rewrite Hal in Hst. intros j u Hj. destruct (set_cases _ _ _ _ _ _ Hi Hj) as [[-> ->]|[_ Hj']]; [done|eauto].
  - unfold stage in Hst. destruct (phase s); try done. destruct (inside s) as [|] eqn:Ein; [|done]. destruct (calls L i closing (base s)) as [b|] eqn:E; [|done]. injection Hc as <-.
    assert (forall j u, ls !! j = Some u -> out u.1 = true \/ mine u.1 = true) as Hot.
    { intros j u Hj. destruct (out u.1) eqn:E1; [by left|]. destruct (mine u.1) eqn:E2; [by right|]. pose proof (cnt_pos counts ls j _ Hj) as Hp. unfold counts in Hp at 1. rewrite (Hst _ _ Hj), E1, E2 in Hp. specialize (Hp eq_refl). lia. }
    assert (forall j l, ls.*1 !! j = Some l -> out l = true \/ mine l = true) as HD.
    { intros j lj Hj. rewrite list_lookup_fmap in Hj. destruct (ls !! j) as [u|] eqn:Eu; [|done]. cbn in Hj. injection Hj as <-. by eapply Hot. }
    destruct (HcallD _ _ _ _ _ (fst_at _ _ _ Hi) Ho HI HD E) as (l'&(HI'&Hot'&Hq')&Hw). exists (l', Closer). split; [|by apply destroy_ok]. split_and!; cbn.
    + by rewrite fst_set.
    + pose proof (cnt_upd counts ls i _ (l', Closer) Hi) as H. unfold counts in H at 2 4. cbn in H. rewrite Ho in H. cbn in H. lia.
    + exists i, l'. rewrite list_lookup_insert by (by eapply lookup_lt_Some). split_and!; [done|..].
      * intros j u Hj Hne. rewrite list_lookup_insert_ne in Hj by done. split; [by eapply Hst|by eapply Hot].
      * intros Hf. apply (Hq' l'); [|done]. rewrite list_lookup_insert; [done|]. rewrite fmap_length. by eapply lookup_lt_Some.
Qed.
Lemma Lenv s s' ls : LInv s ls -> env LL s s' -> LInv s' ls.
Proof.
  intros (HI&Hn&Hst) (b&Hb&->). split_and!; cbn; [by eapply Henv|done|]. unfold stage in *. cbn [phase base]. destruct (phase s); [done| |].
  - destruct Hst as (k&lk&Hk&Hot&Hq). exists k, lk. split_and!; eauto.
  - destruct Hst. split; eauto.
Qed.
Section reached.
Context (s0 : S) (n : nat) (l0 : T) (Hl0 : out l0 = true) (H0 : Inv s0 (replicate n l0)) (c : lived S * list (thread (lived S) (lop O) R)) (Hr : reachable LL (created s0) n c).
Lemma Lreach : conf_ok LL LInv Lidle Lblk Lshape c.
Proof.
  eapply (reach_ok LL LInv Lidle Lblk Lshape) with (l0 := (l0, Plain)); [exact Lcall|exact Lenv|done| |exact Hr]. split_and!; cbn.
  - by rewrite fmap_replicate.
  - rewrite cnt_replicate; [done|]. unfold counts. cbn. by rewrite Hl0.
  - intros j t [-> _]%lookup_replicate. done.
Qed.
Lemma L_no_crash i : ~ crashed c i.
Proof. eapply ok_no_crash, Lreach. Qed.
Lemma L_inv : exists ls, Inv (base c.1) ls.
Proof. destruct Lreach as (ls&_&(HI&_)&_). eauto. Qed.
(** When the memory has been freed. *)
Lemma L_gone : phase c.1 = Gone -> quiet (base c.1) /\ forall j o p, c.2 !! j = Some (Running o p) -> o = Destroy.
Proof.
  intros Hg. destruct Lreach as (ls&Hlen&(HI&Hn&Hst)&Hts). unfold stage in Hst. rewrite Hg in Hst. destruct Hst as [Hq Hst]. split; [done|]. intros j o p Hj.
  assert (exists t, ls !! j = Some t) as [t Ht] by (apply lookup_lt_is_Some_2; rewrite Hlen; by eapply lookup_lt_Some). pose proof (ok_shape _ _ _ _ _ _ _ _ _ (Hts _ _ _ Hj Ht)) as Hsh.
  destruct o as [o|]; [|done]. cbn in Hsh. destruct Hsh as (H1&H2&_). destruct (Hst _ _ Ht) as [[_ ?]|?]; congruence.
Qed.
(** When destroy is about to return, it has been. *)
Lemma L_freed i r : c.2 !! i = Some (Running Destroy (Ret r)) -> phase c.1 = Gone.
Proof.
  intros Hi. destruct Lreach as (ls&Hlen&(HI&Hn&Hst)&Hts).
  assert (exists t, ls !! i = Some t) as [[l pt] Ht] by (apply lookup_lt_is_Some_2; rewrite Hlen; by eapply lookup_lt_Some). pose proof (ok_shape _ _ _ _ _ _ _ _ _ (Hts _ _ _ Hi Ht)) as Hsh.
  cbn in Hsh. unfold stage in Hst. destruct pt; [done|by destruct (Hsh r)|]. destruct (phase c.1); [by specialize (Hst _ _ Ht)| |done].
  destruct Hst as (k&lk&Hk&Hot&_). destruct (decide (i = k)) as [->|Hne]; [congruence|]. by destruct (Hot _ _ Ht Hne).
Qed.
(** Once it has been, nobody waits. *)
Lemma L_gone_runs i : phase c.1 = Gone -> ~ blocked c i.
Proof.
  intros Hg (o&X&m&k&Hi&Hm). destruct (L_gone Hg) as [_ Hd]. pose proof (Hd _ _ _ Hi) as ->. destruct Lreach as (ls&Hlen&(HI&Hn&Hst)&Hts).
  assert (exists t, ls !! i = Some t) as [[l pt] Ht] by (apply lookup_lt_is_Some_2; rewrite Hlen; by eapply lookup_lt_Some). pose proof (ok_shape _ _ _ _ _ _ _ _ _ (Hts _ _ _ Hi Ht)) as Hsh.
  unfold stage in Hst. rewrite Hg in Hst. destruct (proj2 Hst _ _ Ht) as [[H1 _]|H1]; cbn in H1; subst pt; cbn in Hsh; [done|]. by destruct Hsh.
Qed.
End reached.

(** The same execution without the freeing: destroy is the call that it begins with. *)
Context (Hbody : forall i, body i = code L i closing).
Definition goes {S'} (p : prog S' R) (s : S') (q : prog S' R) (s' : S') : Prop := match p with Ret _ => False | Act m k => exists x, m s = Done (x, s') /\ q = k x end.
Definition waits {S'} (p : prog S' R) (s : S') : Prop := match p with Ret _ => False | Act m _ => m s = NoFuel end.
Inductive same : thread (lived S) (lop O) R -> thread S O R -> Prop :=
| same_idle : same Idle Idle
| same_use o p : same (Running (Use o) (within p Ret)) (Running o p)
| same_destroy p : same (Running Destroy (within p and_release)) (Running closing p)
| same_freed r : same (Running Destroy (Ret r)) (Running closing (Ret r)).
Lemma same_reach s0 n c : reachable LL (created s0) n c -> exists ts, reachable L s0 n (base c.1, ts) /\ Forall2 same c.2 ts.
Proof.
  induction 1 as [|c c' Hr (ts&Hr'&Hs) Hst].
  { exists (replicate n Idle). split; [constructor|]. cbn. apply Forall2_replicate. constructor. }
  destruct Hst as [s us i o s' Hi Hc|s us i o X m k x s' Hi Hm|s us i o r Hi|s us s' He]; cbn [fst snd] in *.
  4: { destruct He as (b&Hb&->). exists ts. split; [|done]. eapply reach_step; [exact Hr'|]. by constructor. }
  all: destruct (Forall2_lookup_l _ _ _ _ _ Hs Hi) as (t&Ht&Hti).
  - inversion Hti; subst. assert (exists o', calls L i o' (base s) = Some (base s') /\ same (Running o (code LL i o)) (Running o' (code L i o'))) as (o'&Ho'&Hso).
    { destruct o as [o|]; cbn in Hc |- *.
      - exists o. split; [|constructor]. destruct (own o), (phase s), (calls L i o (base s)); try done; by injection Hc as <-.
      - exists closing. rewrite Hbody. split; [|constructor]. destruct (phase s), (inside s), (calls L i closing (base s)); try done; by injection Hc as <-. }
    exists (<[i := Running o' (code L i o')]> ts). split; [|by apply Forall2_insert]. eapply reach_step; [exact Hr'|]. by constructor.
  - assert (exists o' q', t = Running o' q' /\ exists q'' s'', same (Running o (k x)) (Running o' q'') /\ s'' = base s' /\ (q' = q'' /\ s'' = base s \/ goes q' (base s) q'' s'')) as (o'&q'&->&q''&s''&Hsm&->&Hgo).
    { assert (goes (Act m k) s (k x) s') as Hg by (by exists x). revert Hg. generalize (k x). intros kx Hg. remember (Running o (Act m k)) as u eqn:Eu. destruct Hti as [|o1 p|p|r]; [done| | |done]; injection Eu as <- Ep; rewrite <-Ep in Hg; clear m k x Hi Hm Ep.
      - destruct p as [r|Y m k]; [by rewrite within_ret in Hg|]. rewrite within_act in Hg. destruct Hg as (y&Hy&->). exists o1, (Act m k). split; [done|]. unfold touch in Hy.
        exists (k y), (base s'). split_and!; [constructor|done|]. right. exists y. destruct (phase s); try done; destruct (m (base s)) as [[y0 b]| |]; try done; by simplify_eq.
      - destruct p as [r|Y m k].
        + rewrite within_ret in Hg. destruct Hg as (y&Hy&->). exists closing, (Ret r). split; [done|]. exists (Ret r), (base s'). split_and!; [constructor|done|left]. split; [done|]. unfold release in Hy. destruct (phase s); try done; by simplify_eq.
        + rewrite within_act in Hg. destruct Hg as (y&Hy&->). exists closing, (Act m k). split; [done|]. unfold touch in Hy.
          exists (k y), (base s'). split_and!; [constructor|done|]. right. exists y. destruct (phase s); try done; destruct (m (base s)) as [[y0 b]| |]; try done; by simplify_eq. }
    exists (<[i := Running o' q'']> ts). split; [|by apply Forall2_insert]. destruct Hgo as [[-> ->]|Hgo].
    + by rewrite list_insert_id.
    + eapply reach_step; [exact Hr'|]. destruct q' as [|Y m' k']; [done|]. destruct Hgo as (y&Hy&->). by eapply step_run.
  - exists (<[i := Idle]> ts). split; [|apply Forall2_insert; [done|constructor]].
    assert (exists o', t = Running o' (Ret r) /\ base (returns LL i o r s) = returns L i o' r (base s)) as (o'&->&->).
    { remember (Running o (Ret r)) as u eqn:Eu. destruct Hti as [|o1 p|p|r1]; [done| | |]; injection Eu as <- Ep.
      - destruct p as [r'|Y m' k']; [|by rewrite within_act in Ep]. rewrite within_ret in Ep. injection Ep as ->. by eauto.
      - destruct p as [r'|Y m' k']; [by rewrite within_ret in Ep|by rewrite within_act in Ep].
      - subst r1. by eauto. }
    eapply reach_step; [exact Hr'|]. by constructor.
Qed.
(** Who waits, and who does not, is the same. *)
Lemma blocked_waits {S' O'} (c : S' * list (thread S' O' R)) i : blocked c i <-> exists o p, c.2 !! i = Some (Running o p) /\ waits p c.1.
Proof. split; [intros (o&X&m&k&Hi&Hm); by exists o, (Act m k)|intros (o&[|X m k]&Hi&Hw); [done|by exists o, X, m, k]]. Qed.
Lemma touch_waits X (m : M S X) s : phase s <> Gone -> touch m s = NoFuel <-> m (base s) = NoFuel.
Proof. intros Ha. unfold touch. destruct (phase s); [..|done]; by destruct (m (base s)) as [[x b]| |]. Qed.
Lemma same_waits o p o' p' s : same (Running o p) (Running o' p') -> phase s <> Gone -> waits p s <-> waits p' (base s).
Proof.
  intros Hs Ha. inversion Hs as [|o1 p1|p1|r1]; subst; [..|done]; destruct p' as [r|X m k]; rewrite ?within_ret, ?within_act; cbn; try done; [by apply touch_waits| |by apply touch_waits].
  unfold release. by destruct (phase s).
Qed.
Lemma same_blocked (c : lived S * list (thread (lived S) (lop O) R)) ts i : Forall2 same c.2 ts -> phase c.1 <> Gone -> blocked c i <-> blocked (base c.1, ts) i.
Proof.
  intros Hs Ha. rewrite !blocked_waits. cbn [fst snd]. split.
  - intros (o&p&Hi&Hw). destruct (Forall2_lookup_l _ _ _ _ _ Hs Hi) as (t&Ht&Hst). destruct t as [|o' p']; [by inversion Hst|]. exists o', p'. split; [done|]. by apply (same_waits _ _ _ _ _ Hst).
  - intros (o&p&Hi&Hw). destruct (Forall2_lookup_r _ _ _ _ _ Hs Hi) as (t&Ht&Hst). destruct t as [|o' p']; [by inversion Hst|]. exists o', p'. split; [done|]. by apply (same_waits _ _ _ _ _ Hst).
Qed.
Lemma same_running (c : lived S * list (thread (lived S) (lop O) R)) ts i o' p' : Forall2 same c.2 ts -> ts !! i = Some (Running o' p') -> exists o p, c.2 !! i = Some (Running o p) /\ (o = Use o' \/ o = Destroy /\ o' = closing).
Proof. intros Hs Hi. destruct (Forall2_lookup_r _ _ _ _ _ Hs Hi) as (t&Ht&Hst). inversion Hst; subst; eauto 10. Qed.
Lemma running_same (c : lived S * list (thread (lived S) (lop O) R)) ts i o p : Forall2 same c.2 ts -> c.2 !! i = Some (Running o p) -> exists p', ts !! i = Some (Running (match o with Use o => o | Destroy => closing end) p').
Proof. intros Hs Hi. destruct (Forall2_lookup_l _ _ _ _ _ Hs Hi) as (t&Ht&Hst). inversion Hst; subst; eauto 10. Qed.
End life.
