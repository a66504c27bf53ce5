(** Proofs about the watchdogs' threadpool. *)
From Verif Require Import Common Prog Conc ConcLists WdtpModel WdtpSpec.
Local Open Scope Z_scope.
Notation system := (pools true).

Inductive pc :=
| Out
| I0 | IB | I1 | IE (p : nat) | I2 (p : nat) | I3 (p : nat) | I4 (p : nat) | I5 (p : nat) | IRet (p : nat) | IRef | IBad
| D0 | D1 (p : nat) | D2 (p : nat) | D3 | D4 | DRet | DRef
| G0 | G1 | G2 (p : nat) | GRet (p : nat) | GNone
| P0 (p : nat) | PRet.
Definition hold (l : pc) : bool := match l with IB | I1 | IE _ | I2 _ | I3 _ | I4 _ | D1 _ | D2 _ | D3 | D4 => true | _ => false end.
Definition isD (l : pc) : bool := match l with D0 | D1 _ | D2 _ | D3 | D4 | DRet | DRef => true | _ => false end.
Definition isG (l : pc) : bool := match l with G0 | G1 | G2 _ | GRet _ | GNone => true | _ => false end.
Definition isI (l : pc) : bool := match l with I0 | IB | I1 | IE _ | I2 _ | I3 _ | I4 _ | I5 _ | IRet _ | IRef | IBad => true | _ => false end.
Definition user (l : pc) : bool := isI l || isD l.
Definition is (p q : nat) : bool := bool_decide (p = q).
Definition owns (p : nat) (l : pc) : bool := match l with I3 q | I4 q | D1 q | D2 q | GRet q | P0 q => is p q | _ => false end.
Definition eowns (p : nat) (l : pc) : bool := match l with IE q | I2 q | I3 q | I4 q | I5 q => is p q | _ => false end.
Definition stat (s : wdtp) (l : pc) : Prop :=
  match l with
  | IB | I1 | IE _ => state s = 1
  | I2 p => state s = 1 /\ prefs s p = 0%nat /\ held s p = 0%nat /\ forall j, Up j p ∉ hist s
  | I3 p => state s = 1 /\ forall j, Up j p ∉ hist s
  | I4 p => state s = 1 /\ cell s = Some p /\ forall j, Up j p ∉ hist s
  | D1 p => state s = 3 /\ cell s = Some p
  | D2 _ | D3 | D4 => state s = 3
  | G1 => state s = 2
  | G2 p | GRet p => state s = 2 /\ cell s = Some p
  | _ => True
  end.
Definition know (i : nat) (h : list event) (l : pc) : Prop :=
  match l with
  | I0 | IB | I1 | IE _ | I2 _ | I3 _ | I4 _ | IBad | D0 => did i h = []
  | I5 p | IRet p => did i h = [Up i p]
  | IRef => did i h = [] /\ during (taken i) i h = true
  | D1 _ | D2 _ | D3 | D4 | DRet => did i h = [Down i]
  | DRef => did i h = [] /\ during down i h = true
  | GNone => during down i h = true
  | _ => True
  end.
Fixpoint all_ok (h : list event) : Prop := match h with [] => True | e :: h => event_ok e h /\ all_ok h end.
Definition num_ok (s : wdtp) (h : list event) (chold cD cG : nat) : Prop :=
  (state s = 0 \/ state s = 1 \/ state s = 2 \/ state s = 3) /\
  (state s = 1 \/ state s = 3 -> chold = 1%nat) /\ (state s = 0 \/ state s = 2 -> chold = 0%nat) /\
  deinits s = cD /\ gets s = cG /\ (cD = 0%nat \/ cG = 0%nat) /\
  (state s = 2 -> exists p, cell s = Some p) /\ (state s = 2 -> current h = cell s) /\ (state s <> 2 -> current h = None).
Definition refs_ok (s : wdtp) (h : list event) (ls : list pc) (p : nat) : Prop :=
  prefs s p = (Nat.b2n ((state s =? 2)%Z && bool_decide (cell s = Some p)) + held s p + cnt (owns p) ls)%nat /\
  erefs s p = ((match prefs s p with O => 0 | _ => 1 end) + cnt (eowns p) ls)%nat /\
  held s p = holding p h /\ (next s <= p -> prefs s p = 0 /\ erefs s p = 0 /\ held s p = 0 /\ forall j, Up j p ∉ h)%nat.
Notation nums s h ls := (num_ok s h (cnt hold ls) (cnt isD ls) (cnt isG ls)).
Record Inv (s : wdtp) (ls : list pc) : Prop := {
  i_num : nums s (hist s) ls;
  i_refs : forall p, refs_ok s (hist s) ls p;
  i_stat : forall j l, ls !! j = Some l -> stat s l;
  i_know : forall j l, ls !! j = Some l -> know j (hist s) l;
  i_user : forall j l, ls !! j = Some l -> user l = true -> j ∈ users (hist s);
  i_ev : all_ok (hist s);
}.
Definition blk (i : nat) (l : pc) (s : wdtp) : Prop := False.
Definition shape (o : op) (p : prog wdtp res) (l : pc) : Prop := l <> Out.
Ltac shp := unfold shape; done.
Notation runs := (runs_ok system Inv (.= Out) blk shape).

(** Histories. *)
Definition caller (e : event) : option nat := match e with Called i _ => Some i | _ => None end.
Definition actor (e : event) : option nat := match e with Called i _ | Up i _ | Down i => Some i | _ => None end.
Lemma during_mono P i e h : caller e <> Some i -> during P i h = true -> during P i (e :: h) = true.
Proof. intros He H. cbn [during]. destruct e; try (rewrite H; apply orb_true_r). cbn in He. rewrite decide_False by congruence. rewrite H. apply orb_true_r. Qed.
Lemma during_now P i h : P h = true -> during P i h = true.
Proof. intros H. destruct h; cbn [during]; by rewrite H. Qed.
Lemma did_other i e h : actor e <> Some i -> did i (e :: h) = did i h.
Proof. intros H. destruct e; cbn in *; try done; by rewrite decide_False by congruence. Qed.
Lemma know_mono j e h l : actor e <> Some j -> know j h l -> know j (e :: h) l.
Proof.
  intros He. assert (caller e <> Some j) by (destruct e; cbn in *; congruence). destruct l; cbn [know]; rewrite ?(did_other _ _ _ He); try done; try (by apply during_mono).
  all: intros [? ?]; split; [done|by apply during_mono].
Qed.
Lemma all_ok_at pre e h : all_ok (pre ++ e :: h) -> event_ok e h.
Proof. induction pre as [|x pre IH]; cbn; intros [? ?]; auto. Qed.

(** One step of thread i. *)
Lemma quiet s s' ls i l l' : Inv s ls -> ls !! i = Some l -> hist s' = hist s ->
  nums s' (hist s) (<[i := l']> ls) -> (forall p, refs_ok s' (hist s) (<[i := l']> ls) p) ->
  stat s' l' -> (forall j lj, ls !! j = Some lj -> j <> i -> stat s lj -> stat s' lj) ->
  know i (hist s) l' -> user l' = user l ->
  Inv s' (<[i := l']> ls).
Proof.
  intros [] Hi Hh Hn Hf Hs Hso Hk Hu. split; rewrite ?Hh; auto.
  - apply thr_upd; [done|]. intros j lj Hj Hne. eauto.
  - apply thr_upd; [done|]. intros j lj Hj Hne. auto.
  - apply (thr_upd (fun j lj => user lj = true -> j ∈ users (hist s))); [rewrite Hu; eauto|]. eauto.
Qed.
Lemma hist_move s s' ls i l l' e : Inv s ls -> ls !! i = Some l -> hist s' = e :: hist s -> (match actor e with Some j => j = i | _ => True end) ->
  nums s' (e :: hist s) (<[i := l']> ls) -> (forall p, refs_ok s' (e :: hist s) (<[i := l']> ls) p) ->
  stat s' l' -> (forall j lj, ls !! j = Some lj -> j <> i -> stat s lj -> stat s' lj) ->
  know i (e :: hist s) l' ->
  (forall j, j <> i -> j ∈ users (hist s) -> j ∈ users (e :: hist s)) -> (user l' = true -> i ∈ users (e :: hist s)) ->
  event_ok e (hist s) ->
  Inv s' (<[i := l']> ls).
Proof.
  intros [] Hi Hh He Hn Hf Hs Hso Hk Hu Hu' Hev. split; rewrite ?Hh; auto.
  - apply thr_upd; [done|]. intros j lj Hj Hne. eauto.
  - apply thr_upd; [done|]. intros j lj Hj Hne. assert (actor e <> Some j) by (destruct (actor e); congruence). apply know_mono; auto.
  - apply (thr_upd (fun j lj => user lj = true -> j ∈ users (e :: hist s))); eauto.
  - by split.
Qed.
Lemma holder s ls i j l lj : Inv s ls -> ls !! i = Some l -> ls !! j = Some lj -> j <> i -> hold l = true \/ state s = 0 \/ state s = 2 -> hold lj = false.
Proof.
  intros HI Hi Hj Hne Hl. destruct (i_num _ _ HI) as (H1&H2&H3&_). destruct (hold lj) eqn:E; [|done]. pose proof (cnt_pos hold ls j lj Hj E). destruct Hl as [Hl|Hl]; [|specialize (H3 Hl); lia].
  pose proof (cnt_two hold ls i j l lj (not_eq_sym Hne) Hi Hj Hl E). destruct (decide (state s = 1 \/ state s = 3)) as [Hx|]; [specialize (H2 Hx); lia|]. rewrite H3 in *; lia.
Qed.
Lemma getter s ls i j l lj : Inv s ls -> ls !! i = Some l -> ls !! j = Some lj -> isD l = true -> isG lj = false.
Proof.
  intros HI Hi Hj Hl. destruct (i_num _ _ HI) as (_&_&_&H1&H2&H3&_). destruct (isG lj) eqn:E; [|done]. pose proof (cnt_pos isG ls j lj Hj E). pose proof (cnt_pos isD ls i l Hi Hl). lia.
Qed.
Ltac fields := cbn [state cell prefs erefs next held gets deinits hist set_state set_cell set_refs set_use add_ev] in *.
Ltac count1 b Hi l l' ls := first [rewrite (cnt_same b ls _ l l' Hi eq_refl)|pose proof (cnt_upd b ls _ l l' Hi)].
Ltac numeric HI Hi l l' ls :=
  let H := fresh in pose proof (i_num _ _ HI) as H; unfold num_ok in *; fields; cbn [current] in *; repeat match goal with E : state _ = _ |- _ => rewrite E in * end; count1 hold Hi l l' ls; count1 isD Hi l l' ls; count1 isG Hi l l' ls; cbn [hold isD isG Nat.b2n] in *;
  destruct H as (?&?&?&?&?&?&?&?&?); split_and!; try assumption; try lia; try congruence; try done; try (intros; first [lia|done|match goal with H : _ -> ?G |- ?G => apply H; lia end]).
(** The references to p after a step of thread i. *)
Ltac refs HI Hi l l' ls :=
  let p := fresh "p" in let H := fresh in intros p; pose proof (i_refs _ _ HI p) as H; unfold refs_ok in *; fields; cbn [holding] in *; repeat match goal with E : state _ = _ |- _ => rewrite E in * end; cbn [Z.eqb Pos.eqb andb] in *; count1 (owns p) Hi l l' ls; count1 (eowns p) Hi l l' ls; cbn [owns eowns Nat.b2n] in *;
  destruct H as (?&?&?&?); unfold upd, is in *.
Lemma stat_same s s' lj : state s' = state s -> cell s' = cell s -> (forall p, prefs s p = 0%nat -> held s p = 0%nat -> prefs s' p = 0%nat /\ held s' p = 0%nat) -> (forall p, (forall j, Up j p ∉ hist s) -> (forall j, Up j p ∉ hist s')) -> stat s lj -> stat s' lj.
Proof. intros E1 E2 E3 E4. destruct lj; cbn; try done; rewrite E1, ?E2; try done; intros; destruct_and?; split_and!; auto; try (by apply E3); eapply E4; eauto. Qed.
Lemma stat_nohold s s' lj : hold lj = false -> isG lj = false -> stat s lj -> stat s' lj.
Proof. by destruct lj. Qed.
Lemma stat_get s s' lj : hold lj = false -> state s <> 2 -> stat s lj -> stat s' lj.
Proof. destruct lj; cbn; naive_solver. Qed.
Section acts.
Context (i : nat) (s : wdtp) (ls : list pc).
Context (HI : Inv s ls).
Ltac getk Hi := pose proof (i_know _ _ HI _ _ Hi) as Hk; pose proof (i_stat _ _ HI _ _ Hi) as Hs; cbn [know stat] in Hk, Hs.
Ltac same Hi := let j := fresh in let lj := fresh in intros j lj _ _; apply stat_same; fields; auto.
Lemma is_taken l : ls !! i = Some l -> hold l = false -> state s <> 0 -> taken i (hist s) = true.
Proof.
  intros Hi Hl Hne. destruct (i_num _ _ HI) as (H1&H2&_&_&_&_&H3&H4&_). unfold taken, down. apply orb_true_iff. destruct (decide (state s = 2)) as [E|E].
  - left. rewrite H4 by done. destruct (H3 E) as [p ->]. done.
  - right. apply bool_decide_true. destruct (cnt_ex hold ls) as (j&lj&Hj&Hlj); [rewrite H2; lia|]. intros Hf. assert (j ∈ filter (.≠ i) (users (hist s))) as Hin; [|rewrite Hf in Hin; by apply elem_of_nil in Hin].
    apply elem_of_list_filter. split; [congruence|]. eapply (i_user _ _ HI); [exact Hj|by destruct lj].
Qed.
Lemma is_down : state s <> 2 -> down (hist s) = true.
Proof. intros E. destruct (i_num _ _ HI) as (_&_&_&_&_&_&_&_&H4). apply bool_decide_true. auto. Qed.
Lemma a_init l' : ls !! i = Some I0 -> l' = IB \/ l' = I1 -> match cas 1 0 s with Done (x, s') => Inv s' (<[i := if x =? 0 then l' else IRef]> ls) | _ => False end.
Proof.
  intros Hi Hl'. getk Hi. unfold cas. destruct (Z.eqb_spec (state s) 0) as [E|E].
  - destruct Hl' as [-> | ->]; [apply (quiet s _ ls i I0 IB)|apply (quiet s _ ls i I0 I1)]; auto; fields; try done.
    1: numeric HI Hi I0 IB ls. 1: refs HI Hi I0 IB ls; done. 2: numeric HI Hi I0 I1 ls. 2: refs HI Hi I0 I1 ls; done.
    all: intros j lj Hj Hne; apply stat_get; [exact (holder _ _ _ _ _ _ HI Hi Hj Hne ltac:(auto))|lia].
  - apply (quiet s _ ls i I0 IRef); auto; fields; try done. { numeric HI Hi I0 IRef ls. } { refs HI Hi I0 IRef ls; done. } split; [done|]. by eapply during_now, is_taken.
Qed.
Ltac st_hold Hi := let j := fresh "j" in let lj := fresh "lj" in let Hj := fresh "Hj" in let Hne := fresh "Hne" in intros j lj Hj Hne; apply stat_get; [exact (holder _ _ _ _ _ _ HI Hi Hj Hne (or_introl eq_refl))|lia].
Ltac qui l l' Hi := apply (quiet s _ ls i l l'); auto; fields; try done; try (lazymatch goal with |- num_ok _ _ _ _ _ => numeric HI Hi l l' ls; fail | |- forall p, refs_ok _ _ _ _ => refs HI Hi l l' ls; solve [done|split_and!; try assumption; try lia; done] | |- forall j lj, _ -> _ -> stat _ _ -> _ => first [same Hi; done|st_hold Hi] end).
Lemma a_undo l : ls !! i = Some l -> l = IB -> match exchange 0 s with Done (x, s') => Inv s' (<[i := IBad]> ls) | _ => False end.
Proof. intros Hi ->. getk Hi. unfold exchange. qui IB IBad Hi. Qed.
Lemma fresh_next : (prefs s (next s) = 0 /\ erefs s (next s) = 0 /\ held s (next s) = 0 /\ forall j, Up j (next s) ∉ hist s)%nat.
Proof. destruct (i_refs _ _ HI (next s)) as (_&_&_&H). apply H. lia. Qed.
Lemma made l p : ls !! i = Some l -> eowns p l = true -> (0 < erefs s p)%nat /\ (p < next s)%nat.
Proof. intros Hi Hl. pose proof (cnt_pos (eowns p) ls i l Hi Hl). destruct (i_refs _ _ HI p) as (_&H1&_&H2). split; [lia|]. destruct (decide (next s <= p)%nat) as [Hle|]; [|lia]. destruct (H2 Hle) as (_&?&_). lia. Qed.
Lemma alive l p : ls !! i = Some l -> owns p l = true -> (0 < prefs s p)%nat /\ (0 < erefs s p)%nat /\ (p < next s)%nat.
Proof.
  intros Hi Hl. pose proof (cnt_pos (owns p) ls i l Hi Hl). destruct (i_refs _ _ HI p) as (H0&H1&_&H2). split_and!; [lia|destruct (prefs s p); lia|]. destruct (decide (next s <= p)%nat) as [Hle|]; [|lia]. destruct (H2 Hle) as (?&_). lia.
Qed.
Lemma is_refl p : is p p = true.
Proof. by apply bool_decide_true. Qed.
Lemma a_engine_create : ls !! i = Some I1 -> match engine_create s with Done (x, s') => Inv s' (<[i := I2 x]> ls) /\ Inv s' (<[i := IE x]> ls) | _ => False end.
Proof.
  intros Hi. getk Hi. unfold engine_create. pose proof fresh_next as (Hf1&Hf2&Hf3&Hf4).
  assert (forall l', eowns (next s) l' = true -> (forall p, p <> next s -> eowns p l' = false) -> (forall p, owns p l' = false) -> forall p, refs_ok (set_refs (prefs s) (upd (erefs s) (next s) 1) (S (next s)) s) (hist s) (<[i := l']> ls) p) as Hr.
  { intros l' H1 H2 H3 p. pose proof (i_refs _ _ HI p) as (H4&H5&H6&H7). unfold refs_ok, upd. fields. pose proof (cnt_upd (eowns p) ls i I1 l' Hi) as Hc. rewrite (cnt_same (owns p) ls i I1 l' Hi) by (by rewrite H3). cbn [eowns Nat.b2n] in Hc.
    destruct (decide (p = next s)) as [E|E]; [subst p; rewrite H1 in Hc|rewrite H2 in Hc by done]; cbn [Nat.b2n] in Hc; split_and!; auto; try (intros; apply H7; lia); try lia. }
  split.
  - qui I1 (I2 (next s)) Hi. apply Hr; cbn; [apply is_refl|intros p Hp; by apply bool_decide_false|done].
  - qui I1 (IE (next s)) Hi. apply Hr; cbn; [apply is_refl|intros p Hp; by apply bool_decide_false|done].
Qed.
Lemma engine_refs l l' p n : ls !! i = Some l -> eowns p l = true -> (forall q, q <> p -> eowns q l = false) -> (forall q, eowns q l' = false) -> (forall q, owns q l' = owns q l) -> erefs s p = S n ->
  forall q, refs_ok (set_refs (prefs s) (upd (erefs s) p n) (next s) s) (hist s) (<[i := l']> ls) q.
Proof.
  intros Hi H1 H2 H3 H4 En q. pose proof (i_refs _ _ HI q) as (H5&H6&H7&H8). unfold refs_ok, upd. fields. pose proof (cnt_upd (eowns q) ls i l l' Hi) as Hc. rewrite (cnt_same (owns q) ls i l l' Hi) by (by rewrite H4). rewrite H3 in Hc.
  destruct (made _ _ Hi H1) as [_ Hm].
  destruct (decide (q = p)) as [E|E]; [subst q; rewrite H1 in Hc|rewrite H2 in Hc by done]; cbn [Nat.b2n] in Hc; split_and!; auto; try lia. all: intros; destruct H8 as (?&?&?&?); [lia|]; split_and!; auto; lia.
Qed.
Lemma a_engine_undo p : ls !! i = Some (IE p) -> match engine_dec_ref p s with Done (x, s') => Inv s' (<[i := IB]> ls) | _ => False end.
Proof.
  intros Hi. getk Hi. unfold engine_dec_ref. destruct (erefs s p) as [|n] eqn:En; [destruct (made _ _ Hi (is_refl p)); lia|]. qui (IE p) IB Hi. eapply engine_refs; eauto; cbn; auto using is_refl. intros q Hq. by apply bool_decide_false.
Qed.
Lemma a_pool_create p : ls !! i = Some (I2 p) -> match threadpool_create p s with Done (x, s') => Inv s' (<[i := I3 p]> ls) | _ => False end.
Proof.
  intros Hi. getk Hi. unfold threadpool_create. destruct Hs as (Hs1&Hs2&Hs3&Hs4). destruct (made _ _ Hi (is_refl p)) as [Hm1 Hm2]. destruct (erefs s p) as [|n] eqn:En; [lia|]. qui (I2 p) (I3 p) Hi.
  intros q. pose proof (i_refs _ _ HI q) as (H5&H6&H7&H8). unfold refs_ok, upd. fields. pose proof (cnt_upd (owns q) ls i (I2 p) (I3 p) Hi) as Hc. rewrite (cnt_same (eowns q) ls i (I2 p) (I3 p) Hi) by done. cbn [owns] in Hc. unfold is in *.
  destruct (decide (q = p)) as [E|E]; [subst q; rewrite bool_decide_true in Hc by done|rewrite bool_decide_false in Hc by done]; cbn [Nat.b2n] in Hc; rewrite ?Hs2 in *; split_and!; auto; try lia.
Qed.
Lemma a_store p : ls !! i = Some (I3 p) -> match write_cell (Some p) s with Done (x, s') => Inv s' (<[i := I4 p]> ls) | _ => False end.
Proof. intros Hi. getk Hi. destruct Hs as [Hs1 Hs2]. unfold write_cell. qui (I3 p) (I4 p) Hi. Qed.
Lemma a_up p : ls !! i = Some (I4 p) -> match exchange_ok i s with Done (x, s') => Inv s' (<[i := I5 p]> ls) | _ => False end.
Proof.
  intros Hi. getk Hi. destruct Hs as (Hs1&Hs2&Hs3). unfold exchange_ok. rewrite Hs2. apply (hist_move s _ ls i (I4 p) (I5 p) (Up i p)); auto; fields; try done.
  - numeric HI Hi (I4 p) (I5 p) ls. eauto.
  - intros q. pose proof (i_refs _ _ HI q) as (H5&H6&H7&H8). unfold refs_ok. fields. cbn [holding]. pose proof (cnt_upd (owns q) ls i (I4 p) (I5 p) Hi) as Hc. rewrite (cnt_same (eowns q) ls i (I4 p) (I5 p) Hi) by done. cbn [owns] in Hc. unfold is in *.
    destruct (made _ _ Hi (is_refl p)) as [_ Hm]. rewrite Hs1, Hs2 in *. cbn [Z.eqb Pos.eqb andb Nat.b2n] in *. destruct (decide (q = p)) as [E|E]; [subst q; rewrite !bool_decide_true in * by done|rewrite !bool_decide_false in * by congruence]; cbn [Nat.b2n] in *; split_and!; auto; try lia.
    intros Hle. destruct (H8 Hle) as (?&?&?&?). split_and!; auto. intros j [?|?]%elem_of_cons; [congruence|naive_solver].
  - st_hold Hi.
  - cbn. rewrite decide_True by done. by rewrite Hk.
  - intros _. cbn. by eapply (i_user _ _ HI).
  - split; [|done]. destruct (i_num _ _ HI) as (_&_&_&_&_&_&_&_&H4). apply H4. lia.
Qed.
Lemma a_engine_dec p : ls !! i = Some (I5 p) -> match engine_dec_ref p s with Done (x, s') => Inv s' (<[i := IRet p]> ls) | _ => False end.
Proof.
  intros Hi. getk Hi. unfold engine_dec_ref. destruct (erefs s p) as [|n] eqn:En; [destruct (made _ _ Hi (is_refl p)); lia|]. qui (I5 p) (IRet p) Hi. eapply engine_refs; eauto; cbn; auto using is_refl. intros q Hq. by apply bool_decide_false.
Qed.
Lemma a_deinit : ls !! i = Some D0 -> match cas_deinit i s with Done (x, s') => if x =? 2 then exists p, cell s = Some p /\ Inv s' (<[i := D1 p]> ls) else Inv s' (<[i := DRef]> ls) | _ => False end.
Proof.
  intros Hi. getk Hi. unfold cas_deinit. destruct (Z.eqb_spec (state s) 2) as [E|E].
  - destruct (i_num _ _ HI) as (_&_&_&_&_&_&Hx&Hy&_). destruct (Hx E) as [p Hp]. exists p. split; [done|]. apply (hist_move s _ ls i D0 (D1 p) (Down i)); auto; fields; try done.
    + numeric HI Hi D0 (D1 p) ls.
    + intros q. pose proof (i_refs _ _ HI q) as (H5&H6&H7&H8). unfold refs_ok. fields. cbn [holding]. pose proof (cnt_upd (owns q) ls i D0 (D1 p) Hi) as Hc. rewrite (cnt_same (eowns q) ls i D0 (D1 p) Hi) by done. cbn [owns] in Hc. unfold is in *.
      rewrite E, Hp in *. cbn [Z.eqb Pos.eqb andb Nat.b2n] in *. destruct (decide (q = p)) as [Eq|Eq]; [subst q; rewrite !bool_decide_true in * by done|rewrite !bool_decide_false in * by congruence]; cbn [Nat.b2n] in *; split_and!; auto; try lia.
      all: intros Hle; destruct (H8 Hle) as (?&?&?&?); split_and!; auto; intros j [?|?]%elem_of_cons; [congruence|naive_solver].
    + intros j lj Hj Hne. apply stat_nohold; [exact (holder _ _ _ _ _ _ HI Hi Hj Hne ltac:(auto))|exact (getter _ _ _ _ _ _ HI Hi Hj eq_refl)].
    + cbn. rewrite decide_True by done. by rewrite Hk.
    + intros _. cbn. by eapply (i_user _ _ HI).
    + cbn. rewrite Hy by done. congruence.
  - qui D0 DRef Hi. split; [done|]. by apply during_now, is_down.
Qed.
Lemma a_read p : ls !! i = Some (D1 p) -> match read_cell s with Done (x, s') => x = Some p /\ Inv s' (<[i := D2 p]> ls) | _ => False end.
Proof. intros Hi. getk Hi. unfold read_cell. destruct Hs as [Hs1 Hs2]. split; [done|]. qui (D1 p) (D2 p) Hi. Qed.
Lemma a_dec l p l' : ls !! i = Some l -> (l = D2 p /\ l' = D3) \/ (l = P0 p /\ l' = PRet) -> match dec_ref p s with Done (x, s') => Inv s' (<[i := l']> ls) | _ => False end.
Proof.
  intros Hi Hl. getk Hi. assert (owns p l = true /\ (forall q, q <> p -> owns q l = false) /\ (forall q, owns q l' = false) /\ (forall q, eowns q l = false) /\ (forall q, eowns q l' = false)) as (Ho1&Ho2&Ho3&Ho4&Ho5).
  { destruct Hl as [[-> ->]|[-> ->]]; cbn; split_and!; auto using is_refl; intros q Hq; by apply bool_decide_false. }
  destruct (alive _ _ Hi Ho1) as (Ha1&Ha2&Ha3). unfold dec_ref. destruct (prefs s p) as [|n] eqn:En; [lia|].
  assert (forall q, refs_ok (set_refs (upd (prefs s) p n) (match n with O => upd (erefs s) p (pred (erefs s p)) | _ => erefs s end) (next s) s) (hist s) (<[i := l']> ls) q) as Hr.
  { intros q. pose proof (i_refs _ _ HI q) as (H5&H6&H7&H8). unfold refs_ok, upd. fields. pose proof (cnt_upd (owns q) ls i l l' Hi) as Hc. rewrite (cnt_same (eowns q) ls i l l' Hi) by (by rewrite Ho4, Ho5). rewrite Ho3 in Hc.
    destruct (decide (q = p)) as [E|E]; [subst q; rewrite Ho1 in Hc|rewrite Ho2 in Hc by done]; cbn [Nat.b2n] in Hc.
    - rewrite En in *. destruct n; [rewrite decide_True by done|]; split_and!; auto; try lia; intros; lia.
    - destruct n; [rewrite decide_False by done|]; split_and!; auto; try lia. }
  assert (forall s' h, state s' = state s -> cell s' = cell s -> gets s' = gets s -> deinits s' = deinits s -> current h = current (hist s) -> nums s' h (<[i := l']> ls)) as Hn.
  { intros s' h E1 E2 E3 E4 E5. pose proof (i_num _ _ HI) as H. unfold num_ok in *. rewrite E1, E2, E3, E4, E5. destruct Hl as [[-> ->]|[-> ->]]; [rewrite (cnt_same hold ls _ (D2 p) D3 Hi), (cnt_same isD ls _ (D2 p) D3 Hi), (cnt_same isG ls _ (D2 p) D3 Hi) by done|rewrite (cnt_same hold ls _ (P0 p) PRet Hi), (cnt_same isD ls _ (P0 p) PRet Hi), (cnt_same isG ls _ (P0 p) PRet Hi) by done]; done. }
  assert (know i (hist s) l') as Hk'. { by destruct Hl as [[-> ->]|[-> ->]]. }
  assert (user l' = user l) as Hu. { by destruct Hl as [[-> ->]|[-> ->]]. }
  destruct n as [|n].
  - destruct (erefs s p) as [|m] eqn:Em; [lia|]. cbn [pred] in Hr. apply (hist_move s _ ls i l l' (Freed p)); auto; fields; try done.
    + intros q. destruct (Hr q) as (H1&H2&H3&H4). unfold refs_ok in *. fields. split_and!; auto. intros Hle. destruct (H4 Hle) as (?&?&?&?). split_and!; auto. intros j [?|?]%elem_of_cons; [congruence|naive_solver].
    + destruct Hl as [[-> ->]|[-> ->]]; [|done]. cbn in *. done.
    + intros j lj _ _. apply stat_same; fields; auto. * intros q Hq1 Hq2. split; [|done]. unfold upd. case_decide; done. * intros q Hq j0 [?|?]%elem_of_cons; [congruence|by eapply Hq].
    + by apply know_mono.
    + rewrite Hu. intros Hx. cbn. by eapply (i_user _ _ HI).
    + cbn. destruct (i_refs _ _ HI p) as (H1&_&H2&_). pose proof (cnt_pos (owns p) ls i l Hi Ho1). destruct (i_num _ _ HI) as (_&_&_&_&_&_&_&H4&H5). rewrite En in H1. split; [|lia].
      destruct (Z.eqb_spec (state s) 2) as [E|E]; [|by rewrite H5]. rewrite H4 by done. intros E'. rewrite bool_decide_true in H1 by done. cbn in H1. lia.
  - apply (quiet s _ ls i l l'); auto; fields; try done.
    + destruct Hl as [[-> ->]|[-> ->]]; [|done]. cbn in *. done.
    + intros j lj _ _. apply stat_same; fields; auto. intros q Hq1 Hq2. split; [|done]. unfold upd. case_decide; [subst; congruence|done].
Qed.
Lemma a_clear : ls !! i = Some D3 -> match write_cell None s with Done (x, s') => Inv s' (<[i := D4]> ls) | _ => False end.
Proof. intros Hi. getk Hi. unfold write_cell. qui D3 D4 Hi. Qed.
Lemma a_down : ls !! i = Some D4 -> match exchange 0 s with Done (x, s') => Inv s' (<[i := DRet]> ls) | _ => False end.
Proof. intros Hi. getk Hi. unfold exchange. qui D4 DRet Hi. Qed.
Lemma a_load : ls !! i = Some G0 -> match load s with Done (x, s') => Inv s' (<[i := if x =? 2 then G1 else GNone]> ls) | _ => False end.
Proof. intros Hi. getk Hi. unfold load. destruct (Z.eqb_spec (state s) 2) as [E|E]; [qui G0 G1 Hi|qui G0 GNone Hi]. apply during_now. by apply is_down. Qed.
Lemma a_get_read : ls !! i = Some G1 -> match read_cell s with Done (x, s') => exists p, x = Some p /\ Inv s' (<[i := G2 p]> ls) | _ => False end.
Proof. intros Hi. getk Hi. unfold read_cell. destruct (i_num _ _ HI) as (_&_&_&_&_&_&Hx&_). destruct (Hx Hs) as [p Hp]. exists p. split; [done|]. qui G1 (G2 p) Hi. Qed.
Lemma a_inc p : ls !! i = Some (G2 p) -> match inc_ref p s with Done (x, s') => Inv s' (<[i := GRet p]> ls) | _ => False end.
Proof.
  intros Hi. getk Hi. destruct Hs as [Hs1 Hs2]. unfold inc_ref. assert (0 < prefs s p)%nat as Hp. { destruct (i_refs _ _ HI p) as (H1&_). rewrite Hs1, Hs2, bool_decide_true in H1 by done. cbn in H1. lia. }
  destruct (prefs s p) as [|n] eqn:En; [lia|]. qui (G2 p) (GRet p) Hi.
  - intros q. pose proof (i_refs _ _ HI q) as (H5&H6&H7&H8). unfold refs_ok, upd. fields. pose proof (cnt_upd (owns q) ls i (G2 p) (GRet p) Hi) as Hc. rewrite (cnt_same (eowns q) ls i (G2 p) (GRet p) Hi) by done. cbn [owns] in Hc. unfold is in *.
    destruct (decide (q = p)) as [E|E]; [subst q; rewrite (bool_decide_true (p = p)) in Hc by done|rewrite (bool_decide_false (q = p)) in Hc by done]; cbn [Nat.b2n] in Hc; rewrite ?En in *; split_and!; auto; try lia.
  - intros j lj _ _. apply stat_same; fields; auto. intros q Hq1 Hq2. split; [|done]. unfold upd. case_decide; [subst; congruence|done].
Qed.
End acts.

Definition post (i : nat) (o : op) : res -> pc -> Prop := fun r l => forall s ls, ls !! i = Some l -> Inv s ls -> exists l', l' = Out /\ Inv (returns system i o r s) (<[i := l']> ls).
Definition answers (o : op) (r : res) (l : pc) : Prop :=
  match o with
  | Init m1 m2 => (exists p, l = IRet p /\ m1 && m2 = true /\ r = Int 0) \/ (l = IRef /\ r = Int 1) \/ (l = IBad /\ m1 && m2 = false /\ r = Int 1)
  | Deinit => (l = DRet \/ l = DRef) /\ r = Void
  | Get => (exists p, l = GRet p /\ r = Pool (Some p)) \/ (l = GNone /\ r = Pool None)
  | Drop _ => l = PRet /\ r = Void
  end.
Lemma simple_move s s' ls i l l' e : Inv s ls -> ls !! i = Some l -> hist s' = e :: hist s -> (match actor e with Some j => j = i | _ => True end) ->
  state s' = state s -> cell s' = cell s -> prefs s' = prefs s -> erefs s' = erefs s -> next s' = next s ->
  current (e :: hist s) = current (hist s) -> hold l' = hold l ->
  deinits s' = cnt isD (<[i := l']> ls) -> gets s' = cnt isG (<[i := l']> ls) -> (deinits s' = 0 \/ gets s' = 0)%nat ->
  (forall p, held s' p = holding p (e :: hist s) /\ (held s' p + Nat.b2n (owns p l') = held s p + Nat.b2n (owns p l))%nat) -> (forall p, eowns p l = false) -> (forall p, eowns p l' = false) ->
  (forall p, held s p = 0 -> next s <= p \/ prefs s p = 0 -> held s' p = 0)%nat -> (forall j p, Up j p ∈ e :: hist s -> Up j p ∈ hist s) ->
  stat s' l' -> know i (e :: hist s) l' ->
  (forall j, j <> i -> j ∈ users (hist s) -> j ∈ users (e :: hist s)) -> (user l' = true -> i ∈ users (e :: hist s)) ->
  event_ok e (hist s) ->
  Inv s' (<[i := l']> ls).
Proof.
  intros HI Hi Hh He E1 E2 E3 E4 E5 Ec Eh En1 En2 En3 Hheld Ho1 Ho2 Hz Hup Hst Hk Hu Hu' Hev. apply (hist_move s _ ls i l l' e); auto.
  - pose proof (i_num _ _ HI) as H. unfold num_ok in *. rewrite E1, E2, Ec, (cnt_same hold ls i l l' Hi), <-En1, <-En2 by done. destruct H as (?&?&?&?&?&?&?&?&?). done.
  - intros p. pose proof (i_refs _ _ HI p) as (H5&H6&H7&H8). unfold refs_ok. destruct (Hheld p) as [Hp1 Hp2]. rewrite E1, E2, E3, E4, E5, (cnt_same (eowns p) ls i l l' Hi) by (by rewrite Ho1, Ho2). pose proof (cnt_upd (owns p) ls i l l' Hi) as Hc.
    split_and!; auto; [lia|]. intros Hle. destruct (H8 Hle) as (?&?&?&Hno). split_and!; auto. intros j Hj. by apply (Hno j), Hup.
  - intros j lj _ _. apply stat_same; rewrite ?E1, ?E2, ?E3, ?Hh; auto.
    intros p Hno k Hk'. by apply (Hno k), Hup.
Qed.
Lemma ret_ok i o r l : answers o r l -> post i o r l.
Proof.
  intros Ha s ls Hi HI. exists Out. split; [done|]. pose proof (i_know _ _ HI _ _ Hi) as Hk. pose proof (i_stat _ _ HI _ _ Hi) as Hs.
  assert (forall j, j <> i -> j ∈ users (hist s) -> j ∈ filter (.≠ i) (users (hist s))) as Husr by (intros; by apply elem_of_list_filter).
  assert (forall p, held s p = holding p (hist s)) as Hheld by (intros p; apply (i_refs _ _ HI p)).
  assert (deinits s = cnt isD ls /\ gets s = cnt isG ls /\ (cnt isD ls = 0 \/ cnt isG ls = 0)%nat) as (Hn1&Hn2&Hn3) by (destruct (i_num _ _ HI) as (?&?&?&?&?&?&_); done).
  pose proof (cnt_upd isD ls i l Out Hi) as Hc1. pose proof (cnt_upd isG ls i l Out Hi) as Hc2.
  apply (simple_move s _ ls i l Out (Returned i o r)); auto; destruct o as [m1 m2| | |p]; cbn [answers] in Ha; cbn [returns system]; fields; try done; decompose [or and ex] Ha; subst; cbn [isD isG Nat.b2n] in *; try done; try lia.
  all: try (intros; split; [by cbn|cbn; lia]).
  all: try (intros ? ? [?|?]%elem_of_cons; done).
  all: cbn [know stat] in Hk, Hs.
  - intros p. unfold upd. cbn. unfold is. destruct (decide (p = x)) as [E|E]; [subst; rewrite bool_decide_true by done|rewrite bool_decide_false by done]; cbn; rewrite ?Hheld; lia.
  - intros p Hp Hx. unfold upd. destruct (decide (p = x)) as [->|E]; [|done]. exfalso. destruct (i_refs _ _ HI x) as (H1&_&_&H2). pose proof (cnt_pos (owns x) ls i _ Hi (is_refl x)). destruct Hx as [Hx|Hx]; [destruct (H2 Hx)|]; lia.
  - cbn. left. eauto.
  - cbn. right. destruct Hk. auto.
  - cbn. right. auto.
  - cbn. auto.
  - cbn. destruct Hk. auto.
  - cbn. left. destruct Hs as [Hs1 Hs2]. destruct (i_num _ _ HI) as (_&_&_&_&_&_&_&H1&_). rewrite H1, Hs2 by done. done.
  - cbn. right. auto.
Qed.

Ltac act_step lem := apply wpa_act; [shp|]; intros s0 ls0 Hi0 HI0; pose proof (lem _ _ _ HI0 Hi0) as Hact.
Ltac fin := apply wpa_ret; [shp|apply ret_ok; cbn; eauto 10].
Lemma do_init i m1 m2 : runs i (Init m1 m2) (watchdog_threadpool_init i m1 m2) I0.
Proof.
  unfold watchdog_threadpool_init. act_step (fun i s ls HI Hi => a_init i s ls HI (if m1 then I1 else IB) Hi ltac:(destruct m1; auto)). destruct (cas 1 0 s0) as [[x s1]| |]; [|done..]. destruct (x =? 0); cbn [negb].
  2: { exists IRef. split; [done|]. fin. }
  destruct m1; cbn [negb].
  2: { exists IB. split; [done|]. clear. act_step (fun i s ls HI Hi => a_undo i s ls HI IB Hi eq_refl). destruct (exchange 0 s0) as [[[] s1]| |]; [|done..]. exists IBad. split; [done|]. fin. }
  exists I1. split; [done|]. clear. act_step a_engine_create. destruct (engine_create s0) as [[p s1]| |]; [|done..]. destruct Hact as [Hact1 Hact2]. destruct m2; cbn [negb].
  - exists (I2 p). split; [done|]. clear. act_step (fun i s ls HI => a_pool_create i s ls HI p). destruct (threadpool_create p s0) as [[[] s1]| |]; [|done..]. exists (I3 p). split; [done|]. clear.
    act_step (fun i s ls HI => a_store i s ls HI p). destruct (write_cell (Some p) s0) as [[[] s1]| |]; [|done..]. exists (I4 p). split; [done|]. clear.
    act_step (fun i s ls HI => a_up i s ls HI p). destruct (exchange_ok i s0) as [[[] s1]| |]; [|done..]. exists (I5 p). split; [done|]. clear.
    act_step (fun i s ls HI => a_engine_dec i s ls HI p). destruct (engine_dec_ref p s0) as [[[] s1]| |]; [|done..]. exists (IRet p). split; [done|]. fin.
  - exists (IE p). split; [done|]. clear. act_step (fun i s ls HI => a_engine_undo i s ls HI p). destruct (engine_dec_ref p s0) as [[[] s1]| |]; [|done..]. exists IB. split; [done|]. clear.
    act_step (fun i s ls HI Hi => a_undo i s ls HI IB Hi eq_refl). destruct (exchange 0 s0) as [[[] s1]| |]; [|done..]. exists IBad. split; [done|]. fin.
Qed.
Lemma do_deinit i : runs i Deinit (watchdog_threadpool_deinit i) D0.
Proof.
  unfold watchdog_threadpool_deinit. act_step a_deinit. destruct (cas_deinit i s0) as [[x s1]| |]; [|done..]. destruct (x =? 2); cbn [negb].
  2: { exists DRef. split; [done|]. fin. }
  destruct Hact as (p&_&Hact). exists (D1 p). split; [done|]. clear. act_step (fun i s ls HI => a_read i s ls HI p). destruct (read_cell s0) as [[y s1]| |]; [|done..]. destruct Hact as [-> Hact]. exists (D2 p). split; [done|]. clear.
  act_step (fun i s ls HI Hi => a_dec i s ls HI (D2 p) p D3 Hi (or_introl (conj eq_refl eq_refl))). destruct (dec_ref p s0) as [[[] s1]| |]; [|done..]. exists D3. split; [done|]. clear.
  act_step a_clear. destruct (write_cell None s0) as [[[] s1]| |]; [|done..]. exists D4. split; [done|]. clear.
  act_step a_down. destruct (exchange 0 s0) as [[[] s1]| |]; [|done..]. exists DRet. split; [done|]. fin.
Qed.
Lemma do_get i : runs i Get (watchdog_threadpool_get i) G0.
Proof.
  unfold watchdog_threadpool_get. act_step a_load. destruct (load s0) as [[x s1]| |]; [|done..]. destruct (x =? 2); cbn [negb].
  2: { exists GNone. split; [done|]. fin. }
  exists G1. split; [done|]. clear. act_step a_get_read. destruct (read_cell s0) as [[y s1]| |]; [|done..]. destruct Hact as (p&->&Hact). exists (G2 p). split; [done|]. clear.
  act_step (fun i s ls HI => a_inc i s ls HI p). destruct (inc_ref p s0) as [[[] s1]| |]; [|done..]. exists (GRet p). split; [done|]. fin.
Qed.
Lemma do_drop i p : runs i (Drop p) (drop p) (P0 p).
Proof. unfold drop. act_step (fun i s ls HI Hi => a_dec i s ls HI (P0 p) p PRet Hi (or_intror (conj eq_refl eq_refl))). destruct (dec_ref p s0) as [[[] s1]| |]; [|done..]. exists PRet. split; [done|]. fin. Qed.
Lemma call_ok i o s s' ls l : ls !! i = Some l -> l = Out -> Inv s ls -> calls system i o s = Some s' -> exists l', Inv s' (<[i := l']> ls) /\ runs i o (code system i o) l'.
Proof.
  intros Hi -> HI Hc. exists (match o with Init _ _ => I0 | Deinit => D0 | Get => G0 | Drop p => P0 p end). split; [|destruct o; cbn [code system]; [apply do_init|apply do_deinit|apply do_get|apply do_drop]].
  assert (forall p, held s p = holding p (hist s)) as Hheld by (intros p; apply (i_refs _ _ HI p)).
  assert (deinits s = cnt isD ls /\ gets s = cnt isG ls /\ (cnt isD ls = 0 \/ cnt isG ls = 0)%nat) as (Hn1&Hn2&Hn3) by (destruct (i_num _ _ HI) as (?&?&?&?&?&?&_); done).
  cbn [calls system andb] in Hc. destruct o as [m1 m2| | |p].
  - simplify_eq. pose proof (cnt_upd isD ls i Out I0 Hi) as Hc1. pose proof (cnt_upd isG ls i Out I0 Hi) as Hc2. cbn [isD isG Nat.b2n] in *. apply (simple_move s _ ls i Out I0 (Called i (Init m1 m2))); auto; fields; try done; try lia; cbn; auto.
    + intros j p [?|?]%elem_of_cons; [done|done].
    + by rewrite decide_True.
    + intros. by right.
    + intros. by left.
  - case_bool_decide; [done|]. simplify_eq. pose proof (cnt_upd isD ls i Out D0 Hi) as Hc1. pose proof (cnt_upd isG ls i Out D0 Hi) as Hc2. cbn [isD isG Nat.b2n] in *. apply (simple_move s _ ls i Out D0 (Called i Deinit)); auto; fields; try done; try lia; cbn; auto.
    + intros j p [?|?]%elem_of_cons; [done|done].
    + by rewrite decide_True.
    + intros. by right.
    + intros. by left.
  - case_bool_decide; [done|]. simplify_eq. pose proof (cnt_upd isD ls i Out G0 Hi) as Hc1. pose proof (cnt_upd isG ls i Out G0 Hi) as Hc2. cbn [isD isG Nat.b2n] in *. apply (simple_move s _ ls i Out G0 (Called i Get)); auto; fields; try done; try lia; cbn; auto.
    intros j p [?|?]%elem_of_cons; [done|done].
  - destruct (held s p) as [|n] eqn:En; [done|]. simplify_eq. pose proof (cnt_upd isD ls i Out (P0 p) Hi) as Hc1. pose proof (cnt_upd isG ls i Out (P0 p) Hi) as Hc2. cbn [isD isG Nat.b2n] in *. apply (simple_move s _ ls i Out (P0 p) (Called i (Drop p))); auto; fields; try done; try lia; cbn [user isI isD orb know stat event_ok current]; auto; try done.
    + intros q. unfold upd. cbn. unfold is. destruct (decide (q = p)) as [E|E]; [subst; rewrite bool_decide_true by done|rewrite bool_decide_false by done]; cbn; rewrite <-?Hheld, ?En; lia.
    + intros q Hq _. unfold upd. destruct (decide (q = p)); [subst; congruence|done].
    + intros j q [?|?]%elem_of_cons; [done|done].
Qed.
Lemma init_ok n : Inv initial (replicate n Out).
Proof.
  split; cbn; try done.
  - rewrite !cnt_replicate by done. unfold num_ok. cbn. split_and!; try done; try lia; auto; intros; try done; try lia.
  - intros p. unfold refs_ok. cbn. rewrite !cnt_replicate by done. split_and!; try done. intros _. split_and!; try done. intros j Hj. by apply elem_of_nil in Hj.
  - intros j l [-> _]%lookup_replicate. done.
  - intros j l [-> _]%lookup_replicate. done.
  - intros j l [-> _]%lookup_replicate. done.
Qed.
Section reached.
Context (n : nat) (c : wdtp * list (thread wdtp op res)).
Context (Hr : reachable system initial n c).
Lemma reach : conf_ok system Inv (.= Out) blk shape c.
Proof. eapply (reach_ok system Inv (.= Out) blk shape) with (l0 := Out); [exact call_ok|done|done| |exact Hr]. apply init_ok. Qed.
Lemma history later ev before : hist c.1 = later ++ ev :: before -> event_ok ev before.
Proof. intros Hh. destruct reach as (ls&_&HI&_). eapply all_ok_at. rewrite <-Hh. apply HI. Qed.
Lemma no_crash i : ~ crashed c i.
Proof. eapply ok_no_crash, reach. Qed.
Lemma never_blocked i : ~ blocked c i.
Proof. intros Hb. pose proof reach as (ls&Hlen&HI&Hts). destruct (ok_blocked _ _ _ _ _ _ _ _ Hlen HI Hts Hb) as (l&Hl&Hx). done. Qed.
Lemma references p : (forall i t, c.2 !! i = Some t -> t = Idle) ->
  prefs c.1 p = (holding p (hist c.1) + if decide (current (hist c.1) = Some p) then 1 else 0)%nat /\ erefs c.1 p = (match prefs c.1 p with O => 0 | _ => 1 end)%nat.
Proof.
  intros Hall. pose proof reach as (ls&Hlen&HI&Hts).
  assert (forall b, b Out = false -> cnt b ls = 0%nat) as Hz.
  { intros b Hb. destruct (cnt b ls) eqn:E; [done|]. destruct (cnt_ex b ls) as (j&l&Hj&Hl); [lia|]. assert (exists t, c.2 !! j = Some t) as [t Ht] by (apply lookup_lt_is_Some_2; rewrite <-Hlen; by eapply lookup_lt_Some).
    pose proof (Hts _ _ _ Ht Hj) as Hok. rewrite (Hall _ _ Ht) in Hok. cbn in Hok. subst. congruence. }
  destruct (i_refs _ _ HI p) as (H1&H2&H3&_). destruct (i_num _ _ HI) as (_&_&_&_&_&_&_&H4&H5). rewrite Hz in H1, H2 by done. split; [|lia]. rewrite H1, <-H3. destruct (Z.eqb_spec (state c.1) 2) as [E|E]; cbn [andb].
  - rewrite H4 by done. destruct (decide (cell c.1 = Some p)); [rewrite bool_decide_true by done|rewrite bool_decide_false by done]; cbn; lia.
  - rewrite H5 by done. rewrite decide_False by done. cbn. lia.
Qed.
End reached.
