(** Proofs about the channel: what is true of the operations. *)
From Verif Require Import Common Prog Conc ConcLists ChanModel ChanSpec.
Local Open Scope Z_scope.

(** Where an operation is: in the list, in the list of abandon_pending_operations, scheduled, taken off the list by thread i that cancels it, executed by thread i (which has come to step st, with result r), or done. *)
Inductive place := PQ | PL | PW | PC (i : nat) | PE (i st : nat) (r : cres) | PD.
Definition owner (g : place) : option nat := match g with PC i | PE i _ _ => Some i | _ => None end.
Definition cids (o : chop) : list nat := option_list (pull o) ++ option_list (push o).
Definition single (o : chop) : Prop := (exists x, pull o = Some x /\ push o = None /\ data o = None) \/ (exists x d, pull o = None /\ push o = Some x /\ data o = Some d).
Notation pairs := (list (nat * Z * nat)).
Definition paired (M : pairs) (o : chop) : Prop := exists x d y, push o = Some x /\ pull o = Some y /\ data o = Some d /\ (x, d, y) ∈ M.
Definition unc (h : list event) (o : chop) : Prop := forall x, x ∈ cids o -> ~ called_back h x.
Definition wd (h : list event) (o : chop) (b : bool) : Prop := forall x, x ∈ cids o -> Withdrawn x b ∈ h.
Definition settle (h : list event) (M : pairs) (k : nat) (o : chop) (r : cres) : Prop :=
  match r with
  | OK => paired M o
  | CANCELLED => cancel_called h k /\ (paired M o \/ (single o /\ wd h o false))
  | ABANDONED => single o /\ wd h o true
  end.
Definition owned (h : list event) (k : nat) (o : chop) : Prop := (forall x, pull o = Some x -> Pulled x k ∈ h) /\ (forall x, push o = Some x -> exists d, Pushed x k d ∈ h).
Definition good (h : list event) (M : pairs) (k : nat) (o : chop) (g : place) : Prop :=
  owned h k o /\ (cancel_done h k -> result o = CANCELLED) /\
  match g with
  | PQ => single o /\ result o = OK /\ chan o = true /\ self o = true /\ unc h o
  | PL => single o /\ result o = OK /\ chan o = true /\ self o = true /\ unc h o /\ wd h o true
  | PC i => single o /\ (result o = OK \/ result o = CANCELLED) /\ chan o = true /\ self o = true /\ unc h o /\ wd h o false
  | PW => settle h M k o (result o) /\ chan o = true /\ self o = true /\ unc h o /\ result o <> ABANDONED
  | PE i st r => settle h M k o r /\ self o = true /\ cans o = 0%nat /\ begun o = true /\ ((st <= 3)%nat -> chan o = true) /\ (result o = if (st =? 0)%nat then OK else r) /\
      (forall x, pull o = Some x -> if (st <=? 4)%nat then ~ called_back h x else called_back h x) /\ (forall x, push o = Some x -> if (st <=? 5)%nat then ~ called_back h x else called_back h x)
  | PD => cans o = 0%nat /\ begun o = true /\ forall x, x ∈ cids o -> called_back h x
  end.

Lemma settle_mono h h' M M' k o r : (forall e, e ∈ h -> e ∈ h') -> (forall p, p ∈ M -> p ∈ M') -> settle h M k o r -> settle h' M' k o r.
Proof.
  intros Hh HM. assert (paired M o -> paired M' o) as Hp by (intros (x&d&y&?&?&?&?); exists x, d, y; auto). destruct r; cbn.
  - done.
  - intros [(i&sc&?) [Hx|[? Hx]]]; (split; [exists i, sc; auto|]); [by left; auto|right]. split; [done|]. intros x ?. auto.
  - intros [? H]. split; [done|]. intros x ?. auto.
Qed.
Lemma good_mono h h' M M' k o g : (forall e, e ∈ h -> e ∈ h') -> (forall p, p ∈ M -> p ∈ M') -> (forall x, x ∈ cids o -> called_back h' x -> called_back h x) -> (cancel_done h' k -> cancel_done h k \/ result o = CANCELLED) ->
  good h M k o g -> good h' M' k o g.
Proof.
  intros Hh HM Hcb Hcd ([O1 O2]&Hc&Hg). assert (forall x, called_back h x -> called_back h' x) as Hcb' by (intros x (r&pl&ps&d&H); exists r, pl, ps, d; auto).
  assert (unc h o -> unc h' o) as Hu by (intros H x Hx Hx'; apply (H x Hx); auto). assert (forall b, wd h o b -> wd h' o b) as Hw by (intros b H x Hx; auto).
  assert (forall x, pull o = Some x -> x ∈ cids o) as I1 by (unfold cids; intros x ->; by left). assert (forall x, push o = Some x -> x ∈ cids o) as I2 by (unfold cids; intros x ->; apply elem_of_app; right; by left).
  split_and!.
  - split; [by auto|]. intros x Hx. destruct (O2 x Hx) as [d ?]. exists d. auto.
  - intros H. destruct (Hcd H); auto.
  - destruct g.
    + destruct Hg as (?&?&?&?&?). split_and!; auto.
    + destruct Hg as (?&?&?&?&?&?). split_and!; auto.
    + destruct Hg as (?&?&?&?&?). split_and!; try done; [|by auto]. by eapply settle_mono.
    + destruct Hg as (?&?&?&?&?&?). split_and!; auto.
    + destruct Hg as (?&?&?&?&?&?&P1&P2). split_and!; try done; [by eapply settle_mono|..].
      * intros x Hx. specialize (P1 x Hx). destruct (st <=? 4)%nat; auto.
      * intros x Hx. specialize (P2 x Hx). destruct (st <=? 5)%nat; auto.
    + destruct Hg as (?&?&H). split_and!; auto.
Qed.

Definition qpush (O : list chop) (k : nat) : option (nat * Z) := match O !! k with Some o => match push o, data o with Some x, Some d => Some (x, d) | _, _ => None end | None => None end.
Definition qpull (O : list chop) (k : nat) : option nat := match O !! k with Some o => pull o | None => None end.
Definition fst2 (p : nat * Z * nat) : nat * Z := p.1.
Record store (h : list event) (M : pairs) (G : list place) (O : list chop) (q l w : list nat) (n : nat) : Prop := {
  s_len : length G = length O;
  s_q : NoDup q /\ forall k, k ∈ q <-> G !! k = Some PQ;
  s_l : NoDup l /\ forall k, k ∈ l <-> G !! k = Some PL;
  s_w : NoDup w /\ forall k, k ∈ w <-> G !! k = Some PW;
  s_good : forall k o g, O !! k = Some o -> G !! k = Some g -> good h M k o g;
  s_pushes : pushes h = map fst2 M ++ omap (qpush O) q;
  s_pulls : pulls h = map snd M ++ omap (qpull O) q;
  s_kind : omap (qpush O) q = [] \/ omap (qpull O) q = [];
  s_nd : NoDup (map fst (pushes h) ++ pulls h);
  s_lt : forall x, x ∈ map fst (pushes h) ++ pulls h -> (x < n)%nat;
  s_hlt : forall x k, handle h x k -> (x < n)%nat;
  s_all : forall x, (x < n)%nat -> exists k o, O !! k = Some o /\ x ∈ cids o;
  s_uniq : forall x k k', handle h x k -> handle h x k' -> k = k';
  s_kinds : forall x k k' d, Pulled x k ∈ h -> Pushed x k' d ∈ h -> False;
  s_data : forall k o x d, O !! k = Some o -> push o = Some x -> data o = Some d -> Pushed x k d ∈ h;
  s_stale : forall k o y, O !! k = Some o -> stale o = Some (Some y) -> (y < length O)%nat }.

Lemma cids_handle h k o x : owned h k o -> x ∈ cids o -> handle h x k.
Proof.
  intros [O1 O2] Hx. unfold cids in Hx. apply elem_of_app in Hx as [Hx|Hx].
  - left. apply O1. destruct (pull o); [|by inversion Hx]. apply elem_of_list_singleton in Hx. by subst.
  - right. apply O2. destruct (push o); [|by inversion Hx]. apply elem_of_list_singleton in Hx. by subst.
Qed.
Lemma pull_cids o x : pull o = Some x -> x ∈ cids o.
Proof. unfold cids. intros ->. by left. Qed.
Lemma push_cids o x : push o = Some x -> x ∈ cids o.
Proof. unfold cids. intros ->. apply elem_of_app. right. by left. Qed.
Lemma cids_in o x : x ∈ cids o -> pull o = Some x \/ push o = Some x.
Proof. unfold cids. rewrite elem_of_app. intros [H|H]; [left|right]; destruct (pull o), (push o); try (by inversion H); apply elem_of_list_singleton in H; by subst. Qed.

(** Events that say nothing of operations *)
Definition quiet (e : event) : Prop := match e with Called _ _ | Returned _ _ _ | Opens _ | Closing | Shut => True | _ => False end.
Lemma quiet_pushes e h : quiet e -> pushes (e :: h) = pushes h /\ pulls (e :: h) = pulls h.
Proof. by destruct e. Qed.
Lemma quiet_handle e h x k : quiet e -> handle (e :: h) x k <-> handle h x k.
Proof.
  intros He. unfold handle. split.
  - intros [H|[d H]]; apply elem_of_cons in H as [<-|H]; try done; [by left|right]; eauto.
  - intros [H|[d H]]; [left; by right|right; exists d; by right].
Qed.
Lemma quiet_called e h x : quiet e -> called_back (e :: h) x <-> called_back h x.
Proof.
  intros He. split.
  - intros (r&pl&ps&d&H). apply elem_of_cons in H as [<-|H]; [done|]. by exists r, pl, ps, d.
  - intros (r&pl&ps&d&H). exists r, pl, ps, d. by right.
Qed.
Lemma store_quiet e h M G O q l w n : quiet e -> (forall k o, O !! k = Some o -> cancel_done (e :: h) k -> cancel_done h k \/ result o = CANCELLED) -> store h M G O q l w n -> store (e :: h) M G O q l w n.
Proof.
  intros He Hc [? ? ? ? Hg P1 P2 ? ? ? H1 H2 H3 H4 H5 H6]. destruct (quiet_pushes e h He) as [Q1 Q2]. split; rewrite ?Q1, ?Q2; try done.
  - intros k o g Ho Hgk. eapply good_mono; [| | | |by apply Hg].
    + intros. by right.
    + done.
    + intros x _ Hx. by apply quiet_called in Hx.
    + eauto.
  - intros x k Hx. apply quiet_handle in Hx; eauto.
  - intros x k k' Hx Hx'. apply quiet_handle in Hx, Hx'; eauto.
  - intros x k k' d Hx Hx'. apply elem_of_cons in Hx as [<-|Hx]; [done|]. apply elem_of_cons in Hx' as [<-|Hx']; [done|]. eauto.
  - intros k o x d ???. right. eauto.
Qed.

Lemma qp_insert (O : list chop) k o o' j : O !! k = Some o -> pull o' = pull o -> push o' = push o -> data o' = data o -> qpush (<[k := o']> O) j = qpush O j /\ qpull (<[k := o']> O) j = qpull O j.
Proof.
  intros Hk E1 E2 E3. unfold qpush, qpull. destruct (decide (j = k)) as [->|Hne].
  - rewrite list_lookup_insert by (by eapply lookup_lt_Some). by rewrite Hk, E1, E2, E3.
  - by rewrite list_lookup_insert_ne.
Qed.
Lemma omap_ext_in {A B} (f g : A -> option B) (l : list A) : (forall x, x ∈ l -> f x = g x) -> omap f l = omap g l.
Proof. induction l as [|x l IH]; intros H; [done|]. cbn. rewrite (H x) by (by left). destruct (g x); rewrite IH; auto; intros y Hy; apply H; by right. Qed.
Lemma lookup_upd {A} (l : list A) k x j y : <[k := x]> l !! j = Some y -> (j = k /\ y = x /\ (k < length l)%nat) \/ (j <> k /\ l !! j = Some y).
Proof.
  intros H. destruct (decide (j = k)) as [->|Hne].
  - left. pose proof (lookup_lt_Some _ _ _ H) as Hl. rewrite insert_length in Hl. rewrite list_lookup_insert in H by done. by simplify_eq.
  - right. rewrite list_lookup_insert_ne in H; auto.
Qed.

(** An operation changes, and its place, but not its callbacks. *)
Lemma store_set h M G O q l w n k o o' g g' q' l' w' : store h M G O q l w n -> O !! k = Some o -> G !! k = Some g -> cids o' = cids o -> pull o' = pull o -> push o' = push o -> (data o' = data o \/ data o' = None /\ k ∉ q) ->
  (forall y, stale o' = Some (Some y) -> (y < length O)%nat) -> good h M k o' g' ->
  NoDup q' -> NoDup l' -> NoDup w' -> (forall j, j ∈ q' <-> (j = k /\ g' = PQ) \/ (j <> k /\ j ∈ q)) -> (forall j, j ∈ l' <-> (j = k /\ g' = PL) \/ (j <> k /\ j ∈ l)) -> (forall j, j ∈ w' <-> (j = k /\ g' = PW) \/ (j <> k /\ j ∈ w)) ->
  q' = q -> store h M (<[k := g']> G) (<[k := o']> O) q' l' w' n.
Proof.
  intros [Hlen Hq Hl Hw Hg P1 P2 Hk N1 N2 H1 H2 H3 H4 H5 H6] Ho Hgk Ec E1 E2 Ed Hst Hgood N3 N4 N5 Hq' Hl' Hw' ->.
  assert (k < length G)%nat as HkG by (by eapply lookup_lt_Some). assert (k < length O)%nat as HkO by (by eapply lookup_lt_Some).
  assert (forall j, j ∈ q -> qpush (<[k := o']> O) j = qpush O j /\ qpull (<[k := o']> O) j = qpull O j) as E.
  { intros j Hj. destruct Ed as [Ed|[_ Hn]]; [by eapply qp_insert|]. unfold qpush, qpull. by rewrite list_lookup_insert_ne by (intros ->; done). }
  split.
  - by rewrite !insert_length.
  - split; [done|]. intros j. rewrite Hq'. destruct (decide (j = k)) as [->|Hne]; [rewrite list_lookup_insert by done|rewrite list_lookup_insert_ne by done; rewrite <-(proj2 Hq j)]; (split; [intros [[? ?]|[? ?]]; simplify_eq; done|]); [intros [= ->]; by left|by right].
  - split; [done|]. intros j. rewrite Hl'. destruct (decide (j = k)) as [->|Hne]; [rewrite list_lookup_insert by done|rewrite list_lookup_insert_ne by done; rewrite <-(proj2 Hl j)]; (split; [intros [[? ?]|[? ?]]; simplify_eq; done|]); [intros [= ->]; by left|by right].
  - split; [done|]. intros j. rewrite Hw'. destruct (decide (j = k)) as [->|Hne]; [rewrite list_lookup_insert by done|rewrite list_lookup_insert_ne by done; rewrite <-(proj2 Hw j)]; (split; [intros [[? ?]|[? ?]]; simplify_eq; done|]); [intros [= ->]; by left|by right].
  - intros j oj gj Hj Hgj. apply lookup_upd in Hj as [(->&->&_)|[Hne Hj]]; [rewrite list_lookup_insert in Hgj by done; by simplify_eq|]. rewrite list_lookup_insert_ne in Hgj by done. eauto.
  - rewrite P1. f_equal. apply omap_ext_in. intros j Hj. by rewrite (proj1 (E j Hj)).
  - rewrite P2. f_equal. apply omap_ext_in. intros j Hj. by rewrite (proj2 (E j Hj)).
  - rewrite (omap_ext_in _ (qpush O)) by (intros j Hj; apply (proj1 (E j Hj))). by rewrite (omap_ext_in (qpull _) (qpull O)) by (intros j Hj; apply (proj2 (E j Hj))).
  - done.
  - done.
  - done.
  - intros x Hx. destruct (H2 x Hx) as (j&oj&Hj&Hxj). destruct (decide (j = k)) as [->|Hne].
    + exists k, o'. rewrite list_lookup_insert by done. split; [done|]. rewrite Ec. by simplify_eq.
    + exists j, oj. by rewrite list_lookup_insert_ne.
  - done.
  - done.
  - intros j oj x d Hj Hp Hd. apply lookup_upd in Hj as [(->&->&_)|[Hne Hj]]; [|by eauto]. rewrite E2 in Hp. destruct Ed as [Ed|[Ed _]]; rewrite Ed in Hd; [eauto|done].
  - intros j oj y Hj Hy. rewrite insert_length. apply lookup_upd in Hj as [(->&->&_)|[Hne Hj]]; eauto.
Qed.

Definition unlisted (g : place) : Prop := g <> PQ /\ g <> PL /\ g <> PW.
Lemma notin_place h M G O q l w n k g : store h M G O q l w n -> G !! k = Some g -> (g <> PQ -> k ∉ q) /\ (g <> PL -> k ∉ l) /\ (g <> PW -> k ∉ w).
Proof.
  intros Hs Hg. split_and!; intros Hne Hin; [apply (s_q _ _ _ _ _ _ _ _ Hs) in Hin|apply (s_l _ _ _ _ _ _ _ _ Hs) in Hin|apply (s_w _ _ _ _ _ _ _ _ Hs) in Hin]; by simplify_eq.
Qed.
Lemma listed (q : list nat) k (P : Prop) : (k ∉ q \/ P) -> (P -> k ∈ q) -> forall j, j ∈ q <-> (j = k /\ P) \/ (j <> k /\ j ∈ q).
Proof. intros H1 H2 j. split; [|by intros [[-> ?]|[? ?]]; auto]. intros Hj. destruct (decide (j = k)) as [->|]; [left; split; [done|]; by destruct H1|by right]. Qed.
Lemma store_priv h M G O q l w n k o o' g g' : store h M G O q l w n -> O !! k = Some o -> G !! k = Some g -> pull o' = pull o -> push o' = push o -> (data o' = data o \/ data o' = None) -> stale o' = stale o -> good h M k o' g' ->
  unlisted g -> unlisted g' -> store h M (<[k := g']> G) (<[k := o']> O) q l w n.
Proof.
  intros Hs Ho Hg E1 E2 E3 Es Hgood (U1&U2&U3) (V1&V2&V3). destruct (notin_place _ _ _ _ _ _ _ _ _ _ Hs Hg) as (N1&N2&N3). eapply store_set; try done.
  - unfold cids. by rewrite E1, E2.
  - destruct E3; [by left|right]; auto.
  - rewrite Es. intros ??; by eapply (s_stale _ _ _ _ _ _ _ _ Hs).
  - apply (s_q _ _ _ _ _ _ _ _ Hs).
  - apply (s_l _ _ _ _ _ _ _ _ Hs).
  - apply (s_w _ _ _ _ _ _ _ _ Hs).
  - apply listed; [left; by apply N1|done].
  - apply listed; [left; by apply N2|done].
  - apply listed; [left; by apply N3|done].
Qed.
Lemma store_same h M G O q l w n k o o' g : store h M G O q l w n -> O !! k = Some o -> G !! k = Some g -> pull o' = pull o -> push o' = push o -> data o' = data o -> stale o' = stale o -> good h M k o' g ->
  store h M G (<[k := o']> O) q l w n.
Proof.
  intros Hs Ho Hg E1 E2 E3 Es Hgood. rewrite <-(list_insert_id G k g Hg) at 1. eapply store_set; try done.
  - unfold cids. by rewrite E1, E2.
  - by left.
  - rewrite Es. intros ??; by eapply (s_stale _ _ _ _ _ _ _ _ Hs).
  - apply (s_q _ _ _ _ _ _ _ _ Hs).
  - apply (s_l _ _ _ _ _ _ _ _ Hs).
  - apply (s_w _ _ _ _ _ _ _ _ Hs).
  - intros j. rewrite (proj2 (s_q _ _ _ _ _ _ _ _ Hs) j). destruct (decide (j = k)) as [->|]; [rewrite Hg|]; naive_solver.
  - intros j. rewrite (proj2 (s_l _ _ _ _ _ _ _ _ Hs) j). destruct (decide (j = k)) as [->|]; [rewrite Hg|]; naive_solver.
  - intros j. rewrite (proj2 (s_w _ _ _ _ _ _ _ _ Hs) j). destruct (decide (j = k)) as [->|]; [rewrite Hg|]; naive_solver.
Qed.
Lemma remove_one_in k l j : NoDup l -> j ∈ remove_one k l <-> j <> k /\ j ∈ l.
Proof.
  induction 1 as [|x l Hx Hl IH]; cbn [remove_one]; [split; [by intros ?%elem_of_nil|by intros [_ ?%elem_of_nil]]|]. destruct (decide (x = k)) as [->|Hne].
  - rewrite elem_of_cons. split; [|by intros [? [?|?]]]. intros Hj. split; [by intros ->|by right].
  - rewrite !elem_of_cons, IH. split; [intros [->|[? ?]]; auto|]. intros [? [?|?]]; auto.
Qed.
Lemma remove_one_nd k l : NoDup l -> NoDup (remove_one k l).
Proof.
  induction 1 as [|x l Hx Hl IH]; cbn [remove_one]; [constructor|]. destruct (decide (x = k)); [done|]. constructor; [|done]. rewrite remove_one_in by done. by intros [_ ?].
Qed.
Lemma store_pick h M G O q l w n k o o' i st r : store h M G O q l w n -> O !! k = Some o -> G !! k = Some PW -> pull o' = pull o -> push o' = push o -> data o' = data o -> stale o' = stale o -> good h M k o' (PE i st r) ->
  store h M (<[k := PE i st r]> G) (<[k := o']> O) q l (remove_one k w) n.
Proof.
  intros Hs Ho Hg E1 E2 E3 Es Hgood. destruct (notin_place _ _ _ _ _ _ _ _ _ _ Hs Hg) as (N1&N2&N3). pose proof (proj1 (s_w _ _ _ _ _ _ _ _ Hs)) as Nw. eapply store_set; try done.
  - unfold cids. by rewrite E1, E2.
  - by left.
  - rewrite Es. intros ??; by eapply (s_stale _ _ _ _ _ _ _ _ Hs).
  - apply (s_q _ _ _ _ _ _ _ _ Hs).
  - apply (s_l _ _ _ _ _ _ _ _ Hs).
  - by apply remove_one_nd.
  - apply listed; [left; by apply N1|done].
  - apply listed; [left; by apply N2|done].
  - intros j. rewrite remove_one_in by done. naive_solver.
Qed.
Lemma store_sched h M G O q l w n k o i : store h M G O q l w n -> O !! k = Some o -> G !! k = Some (PC i) -> result o = CANCELLED -> cancel_called h k -> store h M (<[k := PW]> G) O q l (w ++ [k]) n.
Proof.
  intros Hs Ho Hg Hr Hc. destruct (notin_place _ _ _ _ _ _ _ _ _ _ Hs Hg) as (N1&N2&N3). pose proof (s_w _ _ _ _ _ _ _ _ Hs) as [Nw _]. rewrite <-(list_insert_id O k o Ho). eapply store_set; try done.
  - by left.
  - intros ??; by eapply (s_stale _ _ _ _ _ _ _ _ Hs).
  - destruct (s_good _ _ _ _ _ _ _ _ Hs _ _ _ Ho Hg) as (?&?&?&?&?&?&?&?). split_and!; try done; [|congruence]. rewrite Hr. split; [done|]. by right.
  - apply (s_q _ _ _ _ _ _ _ _ Hs).
  - apply (s_l _ _ _ _ _ _ _ _ Hs).
  - apply NoDup_app. split_and!; [done| |apply NoDup_singleton]. intros x Hx ->%elem_of_list_singleton. by apply N3.
  - apply listed; [left; by apply N1|done].
  - apply listed; [left; by apply N2|done].
  - intros j. rewrite elem_of_app, elem_of_list_singleton. assert (k ∉ w) by (by apply N3). destruct (decide (j = k)) as [->|]; naive_solver.
Qed.
Lemma store_pop h M G O q l w n k o o' i st r : store h M G O q (k :: l) w n -> O !! k = Some o -> G !! k = Some PL -> pull o' = pull o -> push o' = push o -> data o' = data o -> stale o' = Some (head l) -> good h M k o' (PE i st r) ->
  store h M (<[k := PE i st r]> G) (<[k := o']> O) q l w n.
Proof.
  intros Hs Ho Hg E1 E2 E3 Es Hgood. destruct (notin_place _ _ _ _ _ _ _ _ _ _ Hs Hg) as (N1&N2&N3). pose proof (s_l _ _ _ _ _ _ _ _ Hs) as [Nl Hl]. apply NoDup_cons in Nl as [Nk Nl]. eapply store_set; try done.
  - unfold cids. by rewrite E1, E2.
  - by left.
  - rewrite Es. intros y [= Hy]. rewrite <-(s_len _ _ _ _ _ _ _ _ Hs). apply (lookup_lt_Some _ _ PL), Hl. right. destruct l; [done|]. injection Hy as ->. by left.
  - apply (s_q _ _ _ _ _ _ _ _ Hs).
  - apply (s_w _ _ _ _ _ _ _ _ Hs).
  - apply listed; [left; by apply N1|done].
  - intros j. rewrite elem_of_cons. destruct (decide (j = k)) as [->|]; naive_solver.
  - apply listed; [left; by apply N3|done].
Qed.

(** A callback is called. *)
Lemma store_callback h M G O q l w n k o i st r x r' pl ps d : store h M G O q l w n -> O !! k = Some o -> G !! k = Some (PE i st r) -> x ∈ cids o -> good (Callback x r' pl ps d :: h) M k o (PE i (S st) r) ->
  store (Callback x r' pl ps d :: h) M (<[k := PE i (S st) r]> G) O q l w n.
Proof.
  intros Hs Ho Hg Hx Hgood. destruct (notin_place _ _ _ _ _ _ _ _ _ _ Hs Hg) as (N1&N2&N3). destruct Hs as [Hlen Hq Hl Hw Hgg P1 P2 Hk M1 M2 H1 H2 H3 H4 H5 H6].
  assert (k < length G)%nat as HkG by (by eapply lookup_lt_Some).
  assert (forall y j, handle (Callback x r' pl ps d :: h) y j -> handle h y j) as Hh. { intros y j [H|[d' H]]; apply elem_of_cons in H as [?|H]; try done; [by left|right; eauto]. }
  split; cbn [pushes pulls]; try done.
  - by rewrite insert_length.
  - split; [apply Hq|]. intros j. rewrite (proj2 Hq j). destruct (decide (j = k)) as [->|Hne]; [rewrite list_lookup_insert by done; naive_solver|by rewrite list_lookup_insert_ne].
  - split; [apply Hl|]. intros j. rewrite (proj2 Hl j). destruct (decide (j = k)) as [->|Hne]; [rewrite list_lookup_insert by done; naive_solver|by rewrite list_lookup_insert_ne].
  - split; [apply Hw|]. intros j. rewrite (proj2 Hw j). destruct (decide (j = k)) as [->|Hne]; [rewrite list_lookup_insert by done; naive_solver|by rewrite list_lookup_insert_ne].
  - intros j oj gj Hj Hgj. apply lookup_upd in Hgj as [(->&->&_)|[Hne Hgj]]; [by simplify_eq|]. pose proof (Hgg _ _ _ Hj Hgj) as Hgd. pose proof (Hgg _ _ _ Ho Hg) as Hgk. eapply good_mono; [| | | |exact Hgd].
    + intros. by right.
    + done.
    + intros y Hy (r0&pl0&ps0&d0&H). apply elem_of_cons in H as [[= -> -> -> -> ->]|H]; [|by exists r0, pl0, ps0, d0]. exfalso. apply Hne. eapply H3; eapply cids_handle; [apply Hgd|done|apply Hgk|done].
    + intros (i0&sc&H). apply elem_of_cons in H as [?|H]; [done|]. left. by exists i0, sc.
  - intros y j Hy. eauto.
  - intros y j j' Hy Hy'. eauto.
  - intros y j j' d' Hy Hy'. apply elem_of_cons in Hy as [?|Hy]; [done|]. apply elem_of_cons in Hy' as [?|Hy']; [done|]. eauto.
  - intros j oj y d' ???. right. eauto.
Qed.

(** A push or a pull is accepted. *)
Definition accepts (b : bool) (x k : nat) (d : Z) : event := if b then Pulled x k else Pushed x k d.
Lemma accepts_handle b n k d h x j : handle (accepts b n k d :: h) x j <-> handle h x j \/ (x = n /\ j = k).
Proof.
  unfold handle. split.
  - intros [H|[d' H]]; apply elem_of_cons in H as [H|H]; try (by left; eauto); destruct b; by simplify_eq/=; right.
  - intros [[H|[d' H]]|[-> ->]]; [left; by right|right; exists d'; by right|]. destruct b; [left|right; exists d]; by left.
Qed.
Lemma accepts_called b n k d h x : called_back (accepts b n k d :: h) x -> called_back h x.
Proof. intros (r&pl&ps&d'&H). apply elem_of_cons in H as [H|H]; [by destruct b|]. by exists r, pl, ps, d'. Qed.
Lemma accepts_done b n k d h j : cancel_done (accepts b n k d :: h) j -> cancel_done h j.
Proof. intros (i&sc&H). apply elem_of_cons in H as [H|H]; [by destruct b|]. by exists i, sc. Qed.
Definition new_op (b : bool) (x : nat) (d : Z) : chop := Chop (if b then Some x else None) (if b then None else Some x) (if b then None else Some d) true OK None true 1 false false 0.
Lemma store_enq h M G O q l w n (b : bool) d : store h M G O q l w n -> (forall x, called_back h x -> (x < n)%nat) -> (forall j, cancel_done h j -> (j < length O)%nat) -> (if b then omap (qpush O) q = [] else omap (qpull O) q = []) ->
  store (accepts b n (length O) d :: h) M (G ++ [PQ]) (O ++ [new_op b n d]) (q ++ [length O]) l w (S n).
Proof.
  intros [Hlen Hq Hl Hw Hg P1 P2 Hk N1 N2 H1 H2 H3 H4 H5 H6] Hcb' Hcd Hkind. set (k := length O) in *. set (e := accepts b n k d).
  assert (forall j, j ∈ q -> (j < k)%nat) as Hqk. { intros j Hj. apply Hq, lookup_lt_Some in Hj. lia. }
  assert (forall p, p <> PQ -> forall j, (G ++ [PQ]) !! j = Some p <-> G !! j = Some p) as HG.
  { intros p Hp j. destruct (decide (j < length G)%nat) as [Hj|Hj]; [by rewrite lookup_app_l|]. rewrite lookup_app_r by lia. split; [|intros ?%lookup_lt_Some; lia]. destruct (j - length G)%nat; cbn; [|done]. naive_solver. }
  assert (omap (qpush (O ++ [new_op b n d])) (q ++ [k]) = omap (qpush O) q ++ if b then [] else [(n, d)]) as E1.
  { rewrite omap_app. f_equal.
    - apply omap_ext_in. intros j Hj. unfold qpush. by rewrite lookup_app_l by (by apply Hqk).
    - cbn. unfold qpush. rewrite lookup_app_r, Nat.sub_diag by done. by destruct b. }
  assert (omap (qpull (O ++ [new_op b n d])) (q ++ [k]) = omap (qpull O) q ++ if b then [n] else []) as E2.
  { rewrite omap_app. f_equal.
    - apply omap_ext_in. intros j Hj. unfold qpull. by rewrite lookup_app_l by (by apply Hqk).
    - cbn. unfold qpull. rewrite lookup_app_r, Nat.sub_diag by done. by destruct b. }
  assert (pushes (e :: h) = pushes h ++ if b then [] else [(n, d)]) as E3 by (unfold e; destruct b; cbn; by rewrite ?app_nil_r).
  assert (pulls (e :: h) = pulls h ++ if b then [n] else []) as E4 by (unfold e; destruct b; cbn; by rewrite ?app_nil_r).
  assert (map fst (pushes (e :: h)) ++ pulls (e :: h) ≡ₚ n :: map fst (pushes h) ++ pulls h) as Ep. { rewrite E3, E4. rewrite map_app. destruct b; cbn; rewrite ?app_nil_r; [rewrite app_assoc, Permutation_app_comm; done|]. rewrite <-app_assoc. cbn. by rewrite Permutation_middle. }
  split.
  - rewrite !app_length, Hlen. done.
  - split; [apply NoDup_app; split_and!; [apply Hq| |apply NoDup_singleton]; intros j Hj ->%elem_of_list_singleton; apply Hqk in Hj; lia|]. intros j. rewrite elem_of_app, elem_of_list_singleton, (proj2 Hq j). split.
    + intros [Hj| ->]; [by apply lookup_app_l_Some|]. rewrite lookup_app_r by lia. by replace (k - length G)%nat with 0%nat by lia.
    + intros Hj. apply lookup_app_Some in Hj as [Hj|[Hj Hj']]; [by left|right]. apply lookup_lt_Some in Hj'. cbn in Hj'. lia.
  - split; [apply Hl|]. intros j. by rewrite HG, (proj2 Hl j).
  - split; [apply Hw|]. intros j. by rewrite HG, (proj2 Hw j).
  - intros j oj gj Hj Hgj. apply lookup_app_Some in Hj as [Hj|[Hj Hj']].
    + rewrite lookup_app_l in Hgj by (apply lookup_lt_Some in Hj; lia). eapply good_mono; [| | | |by apply Hg].
      * intros. by right.
      * done.
      * intros x _. apply accepts_called.
      * intros H. left. by eapply accepts_done.
    + destruct (j - length O)%nat as [|z] eqn:Ez; [|by destruct z]. injection Hj' as <-. assert (j = k) as -> by (unfold k; lia). rewrite lookup_app_r in Hgj by lia. replace (k - length G)%nat with 0%nat in Hgj by lia. injection Hgj as <-.
      assert (forall x, x ∈ cids (new_op b n d) -> x = n) as Hn. { intros x Hx%cids_in. destruct b; cbn in Hx; naive_solver. }
      split_and!; [split| |..]; try done.
      * intros x Hx. assert (x = n) as -> by (apply Hn; by apply pull_cids). unfold e. destruct b; [by left|done].
      * intros x Hx. assert (x = n) as -> by (apply Hn; by apply push_cids). unfold e. destruct b; [done|]. exists d. by left.
      * intros Hc%accepts_done%Hcd. unfold k in Hc. lia.
      * destruct b; [left; by exists n|right; by exists n, d].
      * intros x ->%Hn Hc%accepts_called%Hcb'. lia.
  - rewrite E3, E1, P1. by rewrite app_assoc.
  - rewrite E4, E2, P2. by rewrite app_assoc.
  - rewrite E1, E2. destruct b; [left; by rewrite Hkind|right; by rewrite Hkind].
  - rewrite Ep. constructor; [|done]. intros Hin%N2. lia.
  - intros x. rewrite Ep, elem_of_cons. intros [->|Hx%N2]; lia.
  - intros x j Hx. apply accepts_handle in Hx as [Hx%H1|[-> _]]; lia.
  - intros x Hx. destruct (decide (x = n)) as [->|Hne].
    + exists k, (new_op b n d). split; [by rewrite lookup_app_r, Nat.sub_diag by done|]. destruct b; by left.
    + destruct (H2 x) as (j&oj&Hj&?); [lia|]. exists j, oj. split; [by apply lookup_app_l_Some|done].
  - intros x j j' Hx Hx'. apply accepts_handle in Hx as [Hx|[Ex Ej]], Hx' as [Hx'|[Ex' Ej']]; subst; [eauto| | |done].
    + apply H1 in Hx. lia.
    + apply H1 in Hx'. lia.
  - intros x j j' d' Hx Hx'. apply elem_of_cons in Hx as [Hx|Hx], Hx' as [Hx'|Hx']; [by destruct b; simplify_eq/=| | |by eauto].
    + assert (handle h x j') as HH by (right; eauto). apply H1 in HH. unfold e in Hx. destruct b; simplify_eq/=. lia.
    + assert (handle h x j) as HH by (by left). apply H1 in HH. unfold e in Hx'. destruct b; simplify_eq/=. lia.
  - intros j oj x d' Hj Hp Hd. apply lookup_app_Some in Hj as [Hj|[Hj Hj']]; [right; by eauto|]. destruct (j - length O)%nat as [|z] eqn:Ez; [|by destruct z]. injection Hj' as <-. destruct b; [done|]. cbn in *. simplify_eq. replace j with (length O) by lia. by left.
  - intros j oj y Hj Hy. rewrite app_length. apply lookup_app_Some in Hj as [Hj|[Hj Hj']]; [specialize (H6 _ _ _ Hj Hy); lia|]. destruct (j - length O)%nat as [|z]; [|by destruct z]. by injection Hj' as <-.
Qed.
(** It is the partner of the first in the list. *)
Definition joined (b : bool) (x : nat) (d : Z) (o : chop) (st : option (option nat)) : chop :=
  Chop (if b then Some x else pull o) (if b then push o else Some x) (if b then data o else Some d) (chan o) (result o) st (self o) (S (urefs o)) (cancelling o) (begun o) (cans o).
Lemma store_deq h M G O q l w n (b : bool) d k o : store h M G O (k :: q) l w n -> (forall x, called_back h x -> (x < n)%nat) -> O !! k = Some o -> (if b then pull o = None else push o = None) ->
  exists p, store (accepts b n k d :: h) (M ++ [p]) (<[k := PW]> G) (<[k := joined b n d o (Some (head q))]> O) q l (w ++ [k]) (S n).
Proof.
  intros Hs Hcb' Ho Hside. assert (G !! k = Some PQ) as Hgk by (apply (s_q _ _ _ _ _ _ _ _ Hs); by left). destruct (notin_place _ _ _ _ _ _ _ _ _ _ Hs Hgk) as (_&L2&L3).
  destruct Hs as [Hlen Hq Hl Hw Hg P1 P2 Hk N1 N2 H1 H2 H3 H4 H5 H6]. set (e := accepts b n k d). set (o' := joined b n d o (Some (head q))). destruct (Hg _ _ _ Ho Hgk) as ([O1 O2]&Hcd&Hsi&Hres&Hch&Hse&Hun).
  destruct Hq as [Nq Hq]. apply NoDup_cons in Nq as [Nkq Nq]. assert (k < length G)%nat as HkG by (by eapply lookup_lt_Some). assert (k < length O)%nat as HkO by lia.
  assert (exists p, (if b then exists x v, p = (x, v, n) /\ push o = Some x /\ data o = Some v else exists y, p = (n, d, y) /\ pull o = Some y)) as [p Hp].
  { destruct b, Hsi as [(x&?&?&?)|(x&v&?&?&?)]; try congruence; [by exists (x, v, n), x, v|by exists (n, d, x), x]. }
  exists p.
  assert (forall j, j ∈ q -> qpush (<[k := o']> O) j = qpush O j /\ qpull (<[k := o']> O) j = qpull O j) as E. { intros j Hj. unfold qpush, qpull. by rewrite list_lookup_insert_ne by (intros ->; done). }
  assert (omap (qpush (<[k := o']> O)) q = omap (qpush O) q) as E1 by (apply omap_ext_in; intros j Hj; apply E, Hj). assert (omap (qpull (<[k := o']> O)) q = omap (qpull O) q) as E2 by (apply omap_ext_in; intros j Hj; apply E, Hj).
  assert (pushes (e :: h) = map fst2 (M ++ [p]) ++ omap (qpush O) q /\ pulls (e :: h) = map snd (M ++ [p]) ++ omap (qpull O) q /\ (omap (qpush O) q = [] \/ omap (qpull O) q = [])) as (E3&E4&E5).
  { cbn [omap list_omap] in P1, P2, Hk. assert (qpush O k = if b then Some p.1 else None) as Eh. { unfold qpush. rewrite Ho. destruct b; [destruct Hp as (x&v&->&->&->); done|by rewrite Hside]. }
    assert (qpull O k = if b then None else Some p.2) as Eh'. { unfold qpull. rewrite Ho. destruct b; [done|]. destruct Hp as (y&->&->). done. }
    rewrite Eh in P1, Hk. rewrite Eh' in P2, Hk. rewrite !map_app. unfold e, accepts. destruct b; cbn [pushes pulls map]; rewrite P1, P2.
    - destruct Hk as [|Hk]; [done|]. rewrite Hk, !app_nil_r, <-!app_assoc. destruct Hp as (x&v&->&_). split_and!; auto.
    - destruct Hk as [Hk|]; [|done]. rewrite Hk, !app_nil_r, <-!app_assoc. destruct Hp as (y&->&_). split_and!; auto. }
  assert (map fst (pushes (e :: h)) ++ pulls (e :: h) ≡ₚ n :: map fst (pushes h) ++ pulls h) as Ep. { unfold e. destruct b; cbn; [by rewrite app_assoc, Permutation_app_comm|]. rewrite map_app, <-app_assoc. cbn. by rewrite Permutation_middle. }
  assert (n ∈ cids o' /\ (forall x, x ∈ cids o -> x ∈ cids o') /\ (forall x, x ∈ cids o' -> x = n \/ x ∈ cids o)) as (I1&I2&I3).
  { unfold o', joined, cids. cbn. destruct b; cbn; rewrite Hside; cbn.
    - split_and!; [by left|by right|]. intros x. rewrite elem_of_cons. done.
    - split_and!; [apply elem_of_app; right; by left|intros x; rewrite app_nil_r, elem_of_app; by left|]. intros x. rewrite elem_of_app, elem_of_list_singleton, app_nil_r. naive_solver. }
  split.
  - by rewrite !insert_length.
  - split; [done|]. intros j. specialize (Hq j). rewrite elem_of_cons in Hq. destruct (decide (j = k)) as [->|Hne]; [rewrite list_lookup_insert by done; naive_solver|]. rewrite list_lookup_insert_ne by done. rewrite <-Hq. naive_solver.
  - split; [apply Hl|]. intros j. rewrite (proj2 Hl j). destruct (decide (j = k)) as [->|Hne]; [rewrite list_lookup_insert by done; naive_solver|by rewrite list_lookup_insert_ne].
  - split; [apply NoDup_app; split_and!; [apply Hw| |apply NoDup_singleton]; intros j Hj ->%elem_of_list_singleton; by apply L3|]. intros j. rewrite elem_of_app, elem_of_list_singleton, (proj2 Hw j).
    destruct (decide (j = k)) as [->|Hne]; [rewrite list_lookup_insert by done; naive_solver|]. rewrite list_lookup_insert_ne by done. naive_solver.
  - intros j oj gj Hj Hgj. apply lookup_upd in Hj as [(->&->&_)|[Hne Hj]].
    + rewrite list_lookup_insert in Hgj by done. injection Hgj as <-. split_and!; [split| |..]; try done.
      * intros x Hx. unfold o', joined in Hx. cbn in Hx. destruct b; [injection Hx as <-; by left|]. right. auto.
      * intros x Hx. unfold o', joined in Hx. cbn in Hx. destruct b; [|injection Hx as <-; exists d; by left]. destruct (O2 x Hx) as [d' ?]. exists d'. by right.
      * intros Hc%accepts_done. auto.
      * unfold o' at 2, joined. cbn [result]. rewrite Hres. cbn. unfold o', joined. destruct b.
        -- destruct Hp as (x&v&->&?&?). exists x, v, n. cbn. split_and!; try done. apply elem_of_app. right. by left.
        -- destruct Hp as (y&->&?). exists n, d, y. cbn. split_and!; try done. apply elem_of_app. right. by left.
      * intros x Hx Hc%accepts_called. destruct (I3 x Hx) as [->|Hx']; [apply Hcb' in Hc; lia|]. by apply (Hun x).
      * unfold o', joined. cbn [result]. by rewrite Hres.
    + rewrite list_lookup_insert_ne in Hgj by done. eapply good_mono; [| | | |by apply Hg].
      * intros. by right.
      * intros. apply elem_of_app. by left.
      * intros x _. apply accepts_called.
      * intros H. left. by eapply accepts_done.
  - by rewrite E1.
  - by rewrite E2.
  - by rewrite E1, E2.
  - rewrite Ep. constructor; [|done]. intros Hin%N2. lia.
  - intros x. rewrite Ep, elem_of_cons. intros [->|Hx%N2]; lia.
  - intros x j Hx. apply accepts_handle in Hx as [Hx%H1|[-> _]]; lia.
  - intros x Hx. destruct (decide (x = n)) as [->|Hne].
    + exists k, o'. by rewrite list_lookup_insert by done.
    + destruct (H2 x) as (j&oj&Hj&?); [lia|]. destruct (decide (j = k)) as [->|Hne'].
      * exists k, o'. rewrite list_lookup_insert by done. simplify_eq. auto.
      * exists j, oj. by rewrite list_lookup_insert_ne.
  - intros x j j' Hx Hx'. apply accepts_handle in Hx as [Hx|[Ex Ej]], Hx' as [Hx'|[Ex' Ej']]; subst; [eauto| | |done].
    + apply H1 in Hx. lia.
    + apply H1 in Hx'. lia.
  - intros x j j' d' Hx Hx'. apply elem_of_cons in Hx as [Hx|Hx], Hx' as [Hx'|Hx']; [by destruct b; simplify_eq/=| | |by eauto].
    + assert (handle h x j') as HH by (right; eauto). apply H1 in HH. unfold e in Hx. destruct b; simplify_eq/=. lia.
    + assert (handle h x j) as HH by (by left). apply H1 in HH. unfold e in Hx'. destruct b; simplify_eq/=. lia.
  - intros j oj x d' Hj Hpj Hd. apply lookup_upd in Hj as [(->&->&_)|[Hne Hj]]; [|right; by eauto]. unfold o', joined in *. cbn in *. destruct b; [right; by eauto|]. simplify_eq. by left.
  - intros j oj y Hj Hy. rewrite insert_length. apply lookup_upd in Hj as [(->&->&_)|[Hne Hj]]; [|by eauto]. cbn in Hy. injection Hy as Hy. destruct q as [|z q]; [done|]. injection Hy as ->.
    assert (G !! y = Some PQ) as HG by (apply Hq; right; by left). apply lookup_lt_Some in HG. lia.
Qed.

