(** Reasoning about CMem: weakest preconditions, and ownership of blocks by structs. *)
From Verif Require Import Common Block CMem.
Local Open Scope cmonad_scope.

(** m run in s is defined and ends with a result and a state related by Q. *)
Definition wp {S A} (m : M S A) (s : S) (Q : A -> S -> Prop) : Prop :=
  match m s with Done (a, s') => Q a s' | _ => False end.

Section wp.
Context {S : Type}.
Lemma wp_ret {A} (a : A) (s : S) (Q : A -> S -> Prop) : Q a s -> wp (ret a) s Q.
Proof. done. Qed.
Lemma wp_bind {A B} (m : M S A) (k : A -> M S B) s (Q : B -> S -> Prop) : wp m s (fun a s' => wp (k a) s' Q) -> wp (bind m k) s Q.
Proof. unfold wp, bind. destruct (m s) as [[a s']| |]; done. Qed.
Lemma wp_mono {A} (m : M S A) s (Q Q' : A -> S -> Prop) : wp m s Q -> (forall a s', Q a s' -> Q' a s') -> wp m s Q'.
Proof. unfold wp. destruct (m s) as [[a s']| |]; eauto. Qed.
Lemma wp_done {A} (m : M S A) s (Q : A -> S -> Prop) : wp m s Q <-> exists a s', m s = Done (a, s') /\ Q a s'.
Proof.
  unfold wp. destruct (m s) as [[a s']| |]; split; try done.
  - intros H. eauto.
  - intros (?&?&?&?). by simplify_eq.
  - intros (?&?&?&?). done.
  - intros (?&?&?&?). done.
Qed.
End wp.

Section mem.
Context {O : Type}.
Implicit Types s : st O.

Lemma wp_alloc_ok s (Q : bool -> st O -> Prop) :
  (forall o, Q true (St (mem s) (objs s) o (fails s))) -> (forall o, Q false (St (mem s) (objs s) o (S (fails s)))) -> wp alloc_ok s Q.
Proof.
  intros H1 H2. unfold wp, alloc_ok. destruct s as [m os [|[|] o] f]; simpl in *; auto.
Qed.
Lemma wp_malloc n s (Q : ptr -> st O -> Prop) :
  (forall p o, mem s !! p = None -> Q (Some p) (St (<[p := fresh_block n]> (mem s)) (objs s) o (fails s))) ->
  (forall o, Q None (St (mem s) (objs s) o (S (fails s)))) -> wp (malloc n) s Q.
Proof.
  intros H1 H2. apply wp_bind. apply wp_alloc_ok; intros o; [|by apply wp_ret].
  unfold wp. simpl. apply H1. apply not_elem_of_dom. apply is_fresh.
Qed.
Lemma wp_new_obj o0 s (Q : ptr -> st O -> Prop) :
  (forall p o, objs s !! p = None -> Q (Some p) (St (mem s) (<[p := o0]> (objs s)) o (fails s))) ->
  (forall o, Q None (St (mem s) (objs s) o (S (fails s)))) -> wp (new_obj o0) s Q.
Proof.
  intros H1 H2. apply wp_bind. apply wp_alloc_ok; intros o; [|by apply wp_ret].
  unfold wp. simpl. apply H1. apply not_elem_of_dom. apply is_fresh.
Qed.
Lemma wp_free l b s (Q : unit -> st O -> Prop) :
  mem s !! l = Some b -> Q tt (St (delete l (mem s)) (objs s) (oracle s) (fails s)) -> wp (free (Some l)) s Q.
Proof. intros H HQ. unfold wp, free. by rewrite H. Qed.
Lemma wp_free_null s (Q : unit -> st O -> Prop) : Q tt s -> wp (free None) s Q.
Proof. done. Qed.
Lemma wp_load l b off n s (Q : block -> st O -> Prop) :
  mem s !! l = Some b -> off + n <= length b -> Q (take n (drop off b)) s -> wp (load (Some l) off n) s Q.
Proof. intros H Hl HQ. unfold wp, load. rewrite H, decide_True by done. done. Qed.
Lemma wp_store l b off v s (Q : unit -> st O -> Prop) :
  mem s !! l = Some b -> off + length v <= length b ->
  Q tt (St (<[l := take off b ++ v ++ drop (off + length v) b]> (mem s)) (objs s) (oracle s) (fails s)) -> wp (store (Some l) off v) s Q.
Proof. intros H Hl HQ. unfold wp, store. rewrite H, decide_True by done. done. Qed.
Lemma wp_memcpy d bd doff l bl off n s (Q : unit -> st O -> Prop) :
  d <> l -> mem s !! d = Some bd -> mem s !! l = Some bl -> doff + n <= length bd -> off + n <= length bl ->
  Q tt (St (<[d := take doff bd ++ take n (drop off bl) ++ drop (doff + n) bd]> (mem s)) (objs s) (oracle s) (fails s)) ->
  wp (memcpy (Some d) doff (Some l) off n) s Q.
Proof.
  intros Hne Hd Hl H1 H2 HQ. unfold memcpy. destruct (decide (n = 0)) as [->|].
  - apply wp_ret. rewrite Nat.add_0_r, take_0 in HQ. simpl in HQ. rewrite take_drop in HQ. rewrite insert_id in HQ by done. by destruct s.
  - rewrite decide_False by (intros [? _]; congruence). apply wp_bind. eapply wp_load; [done..|].
    assert (length (take n (drop off bl)) = n) as Hlen by (rewrite take_length, drop_length; lia).
    eapply wp_store; [done|by rewrite Hlen|]. by rewrite Hlen.
Qed.
Lemma wp_memcpy_0 d doff p off s (Q : unit -> st O -> Prop) : Q tt s -> wp (memcpy d doff p off 0) s Q.
Proof. done. Qed.
Lemma wp_memcpy_from d bd doff src n s (Q : unit -> st O -> Prop) :
  mem s !! d = Some bd -> n <= length src -> doff + n <= length bd ->
  Q tt (St (<[d := take doff bd ++ bytes_block (take n src) ++ drop (doff + n) bd]> (mem s)) (objs s) (oracle s) (fails s)) ->
  wp (memcpy_from (Some d) doff src n) s Q.
Proof.
  intros Hd Hl H1 HQ. unfold memcpy_from. destruct (decide (n = 0)) as [->|].
  - apply wp_ret. rewrite Nat.add_0_r in HQ. simpl in HQ. rewrite take_drop in HQ. rewrite insert_id in HQ by done. by destruct s.
  - rewrite decide_True by done.
    assert (length (bytes_block (take n src)) = n) as Hlen by (unfold bytes_block; rewrite fmap_length, take_length; lia).
    eapply wp_store; [done|by rewrite Hlen|]. by rewrite Hlen.
Qed.
Lemma wp_realloc l b n s (Q : ptr -> st O -> Prop) :
  mem s !! l = Some b ->
  (forall p o, p <> l -> mem s !! p = None ->
     Q (Some p) (St (<[p := take n b ++ fresh_block (n - length b)]> (delete l (mem s))) (objs s) o (fails s))) ->
  (forall o, Q None (St (mem s) (objs s) o (S (fails s)))) -> wp (realloc (Some l) n) s Q.
Proof.
  intros Hl H1 H2. unfold wp, realloc. rewrite Hl. apply wp_bind. apply wp_malloc; intros.
  2:{ apply wp_ret. apply H2. }
  assert (p <> l) by (intros ->; congruence).
  apply wp_bind. eapply wp_store; [simpl; by rewrite lookup_insert|unfold fresh_block; rewrite replicate_length, take_length; lia|].
  apply wp_bind. eapply wp_free; [simpl; rewrite !lookup_insert_ne by done; done|]. apply wp_ret. simpl.
  rewrite insert_insert, delete_insert_ne by done. simpl.
  assert (drop (length (take n b)) (fresh_block n) = fresh_block (n - length b)) as ->.
  { unfold fresh_block. rewrite drop_replicate, take_length. f_equal. lia. }
  by apply H1.
Qed.
Lemma wp_realloc_null n s (Q : ptr -> st O -> Prop) : wp (malloc n) s Q -> wp (realloc None n) s Q.
Proof. done. Qed.
Lemma flex_1 base n : flex base n 1 = if decide (Z.of_nat (base + n) <= size_max)%Z then Some (base + n) else None.
Proof. unfold flex. repeat case_decide; try done; [f_equal; lia|lia..]. Qed.
Lemma wp_get_obj h o s (Q : O -> st O -> Prop) : objs s !! h = Some o -> Q o s -> wp (get_obj h) s Q.
Proof. intros H HQ. unfold wp, get_obj. by rewrite H. Qed.
Lemma wp_set_obj h o0 o s (Q : unit -> st O -> Prop) :
  objs s !! h = Some o0 -> Q tt (St (mem s) (<[h := o]> (objs s)) (oracle s) (fails s)) -> wp (set_obj h o) s Q.
Proof. intros H HQ. unfold wp, set_obj. by rewrite H. Qed.
Lemma wp_free_obj h o0 s (Q : unit -> st O -> Prop) :
  objs s !! h = Some o0 -> Q tt (St (mem s) (delete h (objs s)) (oracle s) (fails s)) -> wp (free_obj h) s Q.
Proof. intros H HQ. unfold wp, free_obj. by rewrite H. Qed.
End mem.

(** Ownership: every live struct o stands for an abstract value v; it owns at most one block, [blk o]; [ok o v b] relates the
    struct, the value and the contents of its block. Blocks have one owner, and every block has one. *)
Section rep.
Context {O A : Type} (blk : O -> ptr) (ok : O -> A -> option block -> Prop).

Definition others (h : positive) (os : gmap positive O) (p : positive) : Prop := exists h' o, h' <> h /\ os !! h' = Some o /\ blk o = Some p.
Definition entry_ok (m : gmap positive block) (o : O) (v : A) : Prop :=
  ok o v (blk o ≫= (fun p => m !! p)) /\ forall p, blk o = Some p -> is_Some (m !! p).
Record rep (s : st O) (a : gmap positive A) : Prop := {
  rep_dom : forall h, is_Some (objs s !! h) <-> is_Some (a !! h);
  rep_ok : forall h o v, objs s !! h = Some o -> a !! h = Some v -> entry_ok (mem s) o v;
  rep_inj : forall h1 h2 o1 o2 p, objs s !! h1 = Some o1 -> objs s !! h2 = Some o2 -> blk o1 = Some p -> blk o2 = Some p -> h1 = h2;
  rep_noleak : forall p, is_Some (mem s !! p) -> exists h o, objs s !! h = Some o /\ blk o = Some p }.

Lemma rep_get s a h v : rep s a -> a !! h = Some v -> exists o, objs s !! h = Some o /\ entry_ok (mem s) o v.
Proof.
  intros R H. destruct (proj2 (rep_dom _ _ R h)) as [o Ho]; [by rewrite H|]. exists o. split; [done|]. by eapply rep_ok.
Qed.
Lemma rep_empty o f : rep (St ∅ ∅ o f) ∅.
Proof.
  constructor; simpl.
  - intros h. rewrite !lookup_empty. split; by intros [].
  - intros *. by rewrite lookup_empty.
  - intros *. by rewrite lookup_empty.
  - intros p. rewrite lookup_empty. by intros [? ?].
Qed.
Lemma rep_oracle s a o f : rep s a -> rep (St (mem s) (objs s) o f) a.
Proof. intros []. by constructor. Qed.
Lemma rep_not_obj s a h : rep s a -> objs s !! h = None <-> a !! h = None.
Proof. intros R. pose proof (rep_dom _ _ R h). rewrite !eq_None_not_Some. naive_solver. Qed.
(** The blocks of other structs are live, and are not ours. *)
Lemma rep_others s a h p : rep s a -> others h (objs s) p -> is_Some (mem s !! p).
Proof.
  intros R (h'&o&Hne&Ho&Hp). destruct (proj1 (rep_dom _ _ R h')) as [v Hv]; [by rewrite Ho|].
  destruct (rep_ok _ _ R h' o v Ho Hv) as [_ H]. by apply H.
Qed.
Lemma rep_not_other s a h o p : rep s a -> objs s !! h = Some o -> blk o = Some p -> ~ others h (objs s) p.
Proof. intros R Ho Hp (h'&o'&Hne&Ho'&Hp'). apply Hne. eapply rep_inj; eauto. Qed.

Lemma rep_set s a h o v m' orc f : rep s a ->
  (forall p, others h (objs s) p -> m' !! p = mem s !! p) ->
  entry_ok m' o v ->
  (forall p, blk o = Some p -> ~ others h (objs s) p) ->
  (forall p, is_Some (m' !! p) -> blk o = Some p \/ others h (objs s) p) ->
  rep (St m' (<[h := o]> (objs s)) orc f) (<[h := v]> a).
Proof.
  intros R Hfr Hok Hno Hleak. constructor; simpl.
  - intros h'. destruct (decide (h' = h)) as [->|]; [rewrite !lookup_insert; naive_solver|]. rewrite !lookup_insert_ne by done. apply R.
  - intros h' o' v'. destruct (decide (h' = h)) as [->|Hne]; [rewrite !lookup_insert; intros; by simplify_eq|].
    rewrite !lookup_insert_ne by done. intros Ho Hv. destruct (rep_ok _ _ R _ _ _ Ho Hv) as [H1 H2].
    assert (forall p, blk o' = Some p -> m' !! p = mem s !! p) as Hp.
    { intros p Hp. apply Hfr. exists h', o'. done. }
    split.
    + destruct (blk o') as [p|]; [|done]. simpl in *. by rewrite Hp.
    + intros p Hb. rewrite Hp by done. by apply H2.
  - intros h1 h2 o1 o2 p. destruct (decide (h1 = h)) as [->|N1], (decide (h2 = h)) as [->|N2];
      rewrite ?lookup_insert, ?lookup_insert_ne by done; intros; simplify_eq; try done.
    + exfalso. eapply Hno; [done|]. by exists h2, o2.
    + exfalso. eapply Hno; [done|]. by exists h1, o1.
    + by eapply (rep_inj _ _ R h1 h2).
  - intros p Hp. destruct (Hleak p Hp) as [Hb|(h'&o'&Hne&Ho&Hb)].
    + exists h, o. by rewrite lookup_insert.
    + exists h', o'. by rewrite lookup_insert_ne.
Qed.
Lemma rep_del s a h m' orc f : rep s a ->
  (forall p, others h (objs s) p -> m' !! p = mem s !! p) ->
  (forall p, is_Some (m' !! p) -> others h (objs s) p) ->
  rep (St m' (delete h (objs s)) orc f) (delete h a).
Proof.
  intros R Hfr Hleak. constructor; simpl.
  - intros h'. destruct (decide (h' = h)) as [->|]; [rewrite !lookup_delete; split; by intros []|]. rewrite !lookup_delete_ne by done. apply R.
  - intros h' o' v'. destruct (decide (h' = h)) as [->|Hne]; [by rewrite !lookup_delete|].
    rewrite !lookup_delete_ne by done. intros Ho Hv. destruct (rep_ok _ _ R _ _ _ Ho Hv) as [H1 H2].
    assert (forall p, blk o' = Some p -> m' !! p = mem s !! p) as Hp.
    { intros p Hp. apply Hfr. exists h', o'. done. }
    split.
    + destruct (blk o') as [p|]; [|done]. simpl in *. by rewrite Hp.
    + intros p Hb. rewrite Hp by done. by apply H2.
  - intros h1 h2 o1 o2 p. rewrite !lookup_delete_Some. intros [N1 H1] [N2 H2]. by eapply (rep_inj _ _ R h1 h2).
  - intros p Hp. destruct (Hleak p Hp) as (h'&o'&Hne&Ho&Hb). exists h', o'. by rewrite lookup_delete_ne.
Qed.
(** The usual ways to use rep_set, for a struct h that owned [old] (NULL if it is new or owned nothing). *)
Definition owned (s : st O) (h : positive) (old : ptr) : Prop :=
  match objs s !! h with Some o => blk o = old | None => old = None end.
Lemma owned_not_other s a h p : rep s a -> owned s h (Some p) -> ~ others h (objs s) p.
Proof. unfold owned. intros R. destruct (objs s !! h) as [o|] eqn:Ho; [|done]. intros. by eapply rep_not_other. Qed.
Lemma owned_or_other s a h old p : rep s a -> owned s h old -> is_Some (mem s !! p) -> old = Some p \/ others h (objs s) p.
Proof.
  intros R Hold Hp. destruct (rep_noleak _ _ R p Hp) as (h'&o&Ho&Hb). destruct (decide (h' = h)) as [->|Hne].
  - left. unfold owned in Hold. rewrite Ho in Hold. congruence.
  - right. by exists h', o.
Qed.
Definition del_opt (old : ptr) (m : gmap positive block) : gmap positive block := match old with Some p => delete p m | None => m end.
(** The old block is freed, a new one takes its place. *)
Lemma rep_replace s a h old o v p b orc f : rep s a -> owned s h old -> mem s !! p = None -> blk o = Some p -> ok o v (Some b) ->
  rep (St (<[p := b]> (del_opt old (mem s))) (<[h := o]> (objs s)) orc f) (<[h := v]> a).
Proof.
  intros R Hold Hp Hb Hok. apply rep_set; [done|..].
  - intros q Hq. assert (q <> p). { intros ->. apply (rep_others _ _ _ _ R) in Hq. rewrite Hp in Hq. by destruct Hq. }
    rewrite lookup_insert_ne by done. destruct old as [q0|]; [|done]. simpl. rewrite lookup_delete_ne; [done|].
    intros ->. by eapply owned_not_other.
  - split; [rewrite Hb; simpl; by rewrite lookup_insert|]. intros q Hq. rewrite Hb in Hq. simplify_eq. rewrite lookup_insert. eauto.
  - intros q Hq Ho. rewrite Hb in Hq. simplify_eq. apply (rep_others _ _ _ _ R) in Ho. rewrite Hp in Ho. by destruct Ho.
  - intros q. destruct (decide (q = p)) as [->|]; [by left|]. rewrite lookup_insert_ne by done. intros Hq.
    destruct old as [q0|]; simpl in Hq.
    + destruct (decide (q = q0)) as [->|]; [rewrite lookup_delete in Hq; by destruct Hq|]. rewrite lookup_delete_ne in Hq by done.
      destruct (owned_or_other _ _ _ _ _ R Hold Hq) as [|]; [congruence|by right].
    + destruct (owned_or_other _ _ _ _ _ R Hold Hq); [done|by right].
Qed.
(** The old block is freed, nothing takes its place. *)
Lemma rep_drop s a h old o v orc f : rep s a -> owned s h old -> blk o = None -> ok o v None ->
  rep (St (del_opt old (mem s)) (<[h := o]> (objs s)) orc f) (<[h := v]> a).
Proof.
  intros R Hold Hb Hok. apply rep_set; [done|..].
  - intros q Hq. destruct old as [q0|]; [|done]. simpl. rewrite lookup_delete_ne; [done|]. intros ->. by eapply owned_not_other.
  - split; [by rewrite Hb|]. intros q Hq. by rewrite Hb in Hq.
  - intros q Hq. by rewrite Hb in Hq.
  - intros q Hq. destruct old as [q0|]; simpl in Hq.
    + destruct (decide (q = q0)) as [->|]; [rewrite lookup_delete in Hq; by destruct Hq|]. rewrite lookup_delete_ne in Hq by done.
      destruct (owned_or_other _ _ _ _ _ R Hold Hq) as [|]; [congruence|by right].
    + destruct (owned_or_other _ _ _ _ _ R Hold Hq); [done|by right].
Qed.
(** The contents of its block change. *)
Lemma rep_write s a h p o v b orc f : rep s a -> owned s h (Some p) -> blk o = Some p -> ok o v (Some b) ->
  rep (St (<[p := b]> (mem s)) (<[h := o]> (objs s)) orc f) (<[h := v]> a).
Proof.
  intros R Hold Hb Hok. apply rep_set; [done|..].
  - intros q Hq. rewrite lookup_insert_ne; [done|]. intros ->. by eapply owned_not_other.
  - split; [rewrite Hb; simpl; by rewrite lookup_insert|]. intros q Hq. rewrite Hb in Hq. simplify_eq. rewrite lookup_insert. eauto.
  - intros q Hq. rewrite Hb in Hq. simplify_eq. by eapply owned_not_other.
  - intros q. destruct (decide (q = p)) as [->|]; [by left|]. rewrite lookup_insert_ne by done. intros Hq.
    destruct (owned_or_other _ _ _ _ _ R Hold Hq); [left; congruence|by right].
Qed.
(** Struct and block are freed. *)
Lemma rep_free s a h old orc f : rep s a -> owned s h old ->
  rep (St (del_opt old (mem s)) (delete h (objs s)) orc f) (delete h a).
Proof.
  intros R Hold. apply rep_del; [done|..].
  - intros q Hq. destruct old as [q0|]; [|done]. simpl. rewrite lookup_delete_ne; [done|]. intros ->. by eapply owned_not_other.
  - intros q Hq. destruct old as [q0|]; simpl in Hq.
    + destruct (decide (q = q0)) as [->|]; [rewrite lookup_delete in Hq; by destruct Hq|]. rewrite lookup_delete_ne in Hq by done.
      destruct (owned_or_other _ _ _ _ _ R Hold Hq) as [|]; [congruence|done].
    + destruct (owned_or_other _ _ _ _ _ R Hold Hq); done.
Qed.
(** Nothing is left when every struct has been freed. *)
Lemma rep_all_freed s : rep s ∅ -> mem s = ∅ /\ objs s = ∅.
Proof.
  intros R. assert (objs s = ∅) as E. { apply map_empty. intros h. apply (rep_not_obj _ _ h R). by rewrite lookup_empty. }
  split; [|done]. apply map_empty. intros p. apply eq_None_not_Some. intros Hp.
  destruct (rep_noleak _ _ R p Hp) as (h&o&Ho&_). by rewrite E, lookup_empty in Ho.
Qed.
End rep.
