(** Proofs about TP_WORKER_THREAD. *)
From Verif Require Import Common Prog Conc ConcLists TpwModel TpwSpec.
Local Open Scope Z_scope.

Inductive pc :=
| Out | Bad                                                  (* Bad: about to answer, having refused the arguments *)
| O0 | O1 | O2 | O3 | O4 | O5 | O6 | ORet | ORef | OBad
| X0 | X1 | X2 | X3 | X4 | XRet
| S0 | S1 | S2 | LW | T1 | T2 | E0 | SRet | SRef | W0 (v : Z) | W1 (v : Z) | W2 (v : Z)
| K0 | K1 | K2 | K3 | K4 | K5 | KRet.
Definition tok (l : pc) : bool := match l with T1 | T2 | K0 | K1 | K2 | K3 | K4 => true | _ => false end.
Definition before (l : pc) : bool := match l with T1 | T2 | K0 | K4 => true | _ => false end.
Definition isK (l : pc) : bool := match l with K0 | K1 | K2 | K3 | K4 | K5 | KRet => true | _ => false end.
Definition inexec (l : pc) : bool := match l with S1 | S2 | LW | T1 | T2 | E0 | W0 _ | W1 _ | W2 _ => true | _ => false end.
Definition hold (l : pc) : bool := match l with O1 | O2 | O3 | O4 | O5 | O6 | X1 | X2 | X3 | X4 => true | _ => false end.
Definition isK5 (l : pc) : bool := match l with K5 => true | _ => false end.
Definition user (l : pc) : bool := match l with O0 | O1 | O2 | O3 | O4 | O5 | O6 | ORet | ORef | OBad | X0 | X1 | X2 | X3 | X4 | XRet => true | _ => false end.

Definition owing (s : tpw) (ls : list pc) : Prop := proc s = 2 \/ (0 < pend s)%nat \/ failed (hist s) = true \/ (0 < cnt before ls)%nat.
(** What a thread at l knows of the rest of the state. *)
Definition stat (s : tpw) (l : pc) : Prop :=
  match l with
  | O1 | O2 | O3 => sm s = Opening /\ execs s = 0%nat /\ pool s = false /\ item s = false
  | O4 | O5 => sm s = Opening /\ execs s = 0%nat /\ pool s = true /\ item s = false /\ pend s = 0%nat /\ busy s = 0%nat
  | O6 => sm s = Opening /\ execs s = 0%nat /\ pool s = true /\ item s = true
  | X1 => sm s = Closing /\ pool s = true /\ item s = true
  | X2 => sm s = Closing /\ execs s = 0%nat /\ pool s = true /\ item s = true
  | X3 => sm s = Closing /\ execs s = 0%nat /\ pool s = true /\ item s = false
  | X4 => sm s = Closing /\ execs s = 0%nat /\ pool s = false /\ item s = false
  | K3 => proc s = 2
  | _ => True
  end.
Definition conflict (i : nat) (h : list event) : bool := is_open h || bool_decide (filter (.≠ i) (users h) ≠ []).
(** What it knows of what has happened. *)
Definition know (i : nat) (h : list event) (ow : Prop) (l : pc) : Prop :=
  match l with
  | S1 | S2 | W0 _ | W1 _ | W2 _ | T1 | T2 => during is_open i h = true
  | LW | E0 | SRet => during is_open i h = true /\ (begun_since i h = true \/ ow)
  | SRef => during (fun h => negb (is_open h)) i h = true
  | O0 | O1 | O2 | O3 | O4 | O5 | O6 | OBad => opened_by i h = false
  | ORef => opened_by i h = false /\ during (conflict i) i h = true
  | ORet => opened_by i h = true
  | _ => True
  end.
Fixpoint all_ok (h : list event) : Prop := match h with [] => True | e :: h => event_ok e h /\ all_ok h end.
Definition num_ok (s : tpw) (ctok cK cex chold cK5 : nat) : Prop :=
  ((proc s = 0 /\ (ctok + pend s + lost s = 0)%nat) \/ ((proc s = 1 \/ proc s = 2) /\ (ctok + pend s + lost s = 1)%nat)) /\
  busy s = cK /\ execs s = cex /\ chold = (match sm s with Opening | Closing => 1 | _ => 0 end)%nat /\
  match sm s with Closed => pool s = false /\ item s = false /\ execs s = 0%nat | Opened => pool s = true /\ item s = true | _ => True end /\
  (pool s = false -> pend s = 0%nat /\ busy s = 0%nat) /\
  (waiters s <> [] -> proc s <> 0 \/ (0 < cK5)%nat) /\
  (lost s = 0%nat \/ failed (hist s) = true).
Notation nums s ls := (num_ok s (cnt tok ls) (cnt isK ls) (cnt inexec ls) (cnt hold ls) (cnt isK5 ls)).
Record Inv (s : tpw) (ls : list pc) : Prop := {
  i_num : nums s ls;
  i_wait : forall j, j ∈ waiters s -> exists v, ls !! j = Some (W2 v);
  i_stat : forall j l, ls !! j = Some l -> stat s l;
  i_know : forall j l, ls !! j = Some l -> know j (hist s) (owing s ls) l;
  i_due : due (hist s) = true -> owing s ls;
  i_act : forall j, j ∈ active (hist s) -> ls !! j = Some K1;
  i_open : is_open (hist s) = true <-> sm s = Opened;
  i_user : forall j l, ls !! j = Some l -> user l = true -> j ∈ users (hist s);
  i_ev : all_ok (hist s);
}.
Definition blk (i : nat) (l : pc) (s : tpw) : Prop :=
  match l with W2 _ => i ∈ waiters s | X1 => (0 < execs s)%nat | X3 => (0 < pend s)%nat \/ (0 < busy s)%nat | _ => False end.
(** Which threads are in which call. *)
Definition shape (o : op) (p : prog tpw res) (l : pc) : Prop := (tok l = true \/ isK5 l = true -> o = Work \/ exists ok, o = Schedule true ok) /\ (isK l = true <-> o = Work) /\ l <> Out.
Ltac shp := unfold shape; cbn; split_and!; eauto; try done; try (intros [?|?]; done).
Notation runs := (runs_ok worker Inv (.= Out) blk shape).

(** Histories. *)
Definition caller (e : event) : option nat := match e with Called i _ => Some i | _ => None end.
Lemma during_mono P i e h : caller e <> Some i -> during P i h = true -> during P i (e :: h) = true.
Proof. intros He H. cbn [during]. destruct e; try (rewrite H; apply orb_true_r). cbn in He. rewrite decide_False by congruence. rewrite H. apply orb_true_r. Qed.
Lemma during_now P i h : P h = true -> during P i h = true.
Proof. intros H. destruct h; cbn [during]; by rewrite H. Qed.
Lemma begun_mono i e h : caller e <> Some i -> begun_since i h = true -> begun_since i (e :: h) = true.
Proof. intros He H. destruct e; cbn [begun_since]; try done. cbn in He. by rewrite decide_False by congruence. Qed.
Lemma opened_other i e h : caller e <> Some i -> (match e with Opens j => j <> i | _ => True end) -> opened_by i (e :: h) = opened_by i h.
Proof. intros He H. destruct e; cbn [opened_by]; try done; cbn in He; by rewrite decide_False by congruence. Qed.
Lemma know_mono j e h (ow ow' : Prop) l : caller e <> Some j -> (match e with Opens k => k <> j | _ => True end) -> (ow -> ow') -> know j h ow l -> know j (e :: h) ow' l.
Proof.
  intros He Ho How. destruct l; cbn [know]; try done; rewrite ?(opened_other _ _ _ He Ho); try done; try (by apply during_mono).
  1: intros [? ?]; split; [done|by apply during_mono].
  all: intros [? [Hb|?]]; (split; [by apply during_mono|]); [left; by apply begun_mono|auto].
Qed.
Lemma know_ow j h (ow ow' : Prop) l : (ow -> ow') -> know j h ow l -> know j h ow' l.
Proof. intros How. destruct l; cbn [know]; try done; naive_solver. Qed.
Lemma all_ok_at pre e h : all_ok (pre ++ e :: h) -> event_ok e h.
Proof. induction pre as [|x pre IH]; cbn; intros [? ?]; auto. Qed.

(** One step of thread i. *)
Lemma quiet s s' ls i l l' : Inv s ls -> ls !! i = Some l -> hist s' = hist s ->
  nums s' (<[i := l']> ls) ->
  (forall j, j ∈ waiters s' -> (j <> i /\ j ∈ waiters s) \/ (j = i /\ exists v, l' = W2 v)) ->
  stat s' l' -> (forall j lj, ls !! j = Some lj -> j <> i -> stat s lj -> stat s' lj) ->
  (owing s ls -> owing s' (<[i := l']> ls)) -> know i (hist s) (owing s' (<[i := l']> ls)) l' ->
  (sm s = Opened <-> sm s' = Opened) -> l <> K1 -> user l' = user l ->
  Inv s' (<[i := l']> ls).
Proof.
  intros [] Hi Hh Hn Hw Hs Hso How Hk Hsm HK Hu. split; rewrite ?Hh; auto.
  - intros j Hj. destruct (Hw _ Hj) as [[Hne Hj']|[-> [v ->]]]; [|exists v; by eapply upd_at]. rewrite list_lookup_insert_ne by done. auto.
  - apply thr_upd; [done|]. intros j lj Hj Hne. eauto.
  - apply thr_upd; [done|]. intros j lj Hj Hne. eapply know_ow; [exact How|]. auto.
  - intros j Hj. rewrite list_lookup_insert_ne; [auto|]. intros <-. specialize (i_act0 _ Hj). congruence.
  - by rewrite i_open0.
  - apply (thr_upd (fun j lj => user lj = true -> j ∈ users (hist s))); [rewrite Hu; eauto|]. eauto.
Qed.
Lemma hist_move s s' ls i l l' e : Inv s ls -> ls !! i = Some l -> hist s' = e :: hist s -> (match e with Called j _ | Opens j => j = i | _ => True end) ->
  nums s' (<[i := l']> ls) ->
  (forall j, j ∈ waiters s' -> (j <> i /\ j ∈ waiters s) \/ (j = i /\ exists v, l' = W2 v)) ->
  stat s' l' -> (forall j lj, ls !! j = Some lj -> j <> i -> stat s lj -> stat s' lj) ->
  (owing s ls -> owing s' (<[i := l']> ls) \/ exists k, e = Begins k) -> know i (e :: hist s) (owing s' (<[i := l']> ls)) l' ->
  (due (e :: hist s) = true -> due (hist s) = true \/ owing s' (<[i := l']> ls)) ->
  (forall j, j ∈ active (e :: hist s) -> <[i := l']> ls !! j = Some K1) ->
  (is_open (e :: hist s) = true <-> sm s' = Opened) ->
  (forall j, j <> i -> j ∈ users (hist s) -> j ∈ users (e :: hist s)) -> (user l' = true -> i ∈ users (e :: hist s)) ->
  event_ok e (hist s) ->
  Inv s' (<[i := l']> ls).
Proof.
  intros [] Hi Hh He Hn Hw Hs Hso How Hk Hd Ha Hsm Hu Hu' Hev. split; rewrite ?Hh; auto.
  - intros j Hj. destruct (Hw _ Hj) as [[Hne Hj']|[-> [v ->]]]; [|exists v; by eapply upd_at]. rewrite list_lookup_insert_ne by done. auto.
  - apply thr_upd; [done|]. intros j lj Hj Hne. eauto.
  - apply thr_upd; [done|]. intros j lj Hj Hne. assert (caller e <> Some j) as Hc by (destruct e; cbn; try done; congruence).
    assert (match e with Opens k => k <> j | _ => True end) as Ho by (destruct e; try done; congruence).
    assert ((owing s ls -> owing s' (<[i := l']> ls)) \/ exists k, e = Begins k) as [Hw'|[k ->]].
    { destruct e; try (left; intros Hx; destruct (How Hx) as [?|[? ?]]; done). eauto. }
    + by eapply know_mono; [..|apply i_know0].
    + specialize (i_know0 _ _ Hj). destruct lj; cbn [know] in *; try done; try (by apply during_mono); try (rewrite opened_other; done).
      1: destruct i_know0; split; [by rewrite opened_other|by apply during_mono].
      all: destruct i_know0; split; [by apply during_mono|by left].
  - intros Hx. destruct (Hd Hx) as [Hy|?]; [|done]. destruct (How (i_due0 Hy)) as [|[k ->]]; done.
  - apply (thr_upd (fun j lj => user lj = true -> j ∈ users (e :: hist s))); eauto.
  - by split.
Qed.
Lemma holder s ls i j l lj : Inv s ls -> ls !! i = Some l -> ls !! j = Some lj -> j <> i -> hold l = true -> hold lj = false.
Proof.
  intros HI Hi Hj Hne Hl. destruct (hold lj) eqn:E; [|done]. pose proof (cnt_two hold ls i j l lj (not_eq_sym Hne) Hi Hj Hl E) as H. destruct (i_num _ _ HI) as (_&_&_&Hh&_). rewrite Hh in H. destruct (sm s); lia.
Qed.
Lemma sole s ls i j l lj : Inv s ls -> ls !! i = Some l -> ls !! j = Some lj -> j <> i -> tok l = true -> tok lj = false.
Proof.
  intros HI Hi Hj Hne Hl. destruct (tok lj) eqn:E; [|done]. pose proof (cnt_two tok ls i j l lj (not_eq_sym Hne) Hi Hj Hl E) as H. destruct (i_num _ _ HI) as (Hh&_). lia.
Qed.
Lemma holder_sm s ls i l : Inv s ls -> ls !! i = Some l -> hold l = true -> sm s = Opening \/ sm s = Closing.
Proof. intros HI Hi Hl. pose proof (cnt_pos hold ls i l Hi Hl) as H. destruct (i_num _ _ HI) as (_&_&_&Hh&_). rewrite Hh in H. destruct (sm s); auto; lia. Qed.
Ltac counts Hi l l' ls :=
  pose proof (cnt_upd tok ls _ l l' Hi); pose proof (cnt_upd isK ls _ l l' Hi); pose proof (cnt_upd inexec ls _ l l' Hi); pose proof (cnt_upd hold ls _ l l' Hi); pose proof (cnt_upd isK5 ls _ l l' Hi);
  pose proof (cnt_upd before ls _ l l' Hi);
  cbn [tok isK inexec hold isK5 before Nat.b2n] in *.
Ltac fields := cbn [proc waiters sm execs pool item pend busy lost hist set_proc set_waiters set_sm set_pool set_hist] in *.
Lemma no_waiter s ls : Inv s ls -> execs s = 0%nat -> waiters s = [].
Proof.
  intros HI He. destruct (waiters s) as [|j w] eqn:E; [done|]. destruct (i_wait _ _ HI j) as [v Hv]; [rewrite E; by left|]. pose proof (cnt_pos inexec ls j _ Hv eq_refl).
  destruct (i_num _ _ HI) as (_&_&Hx&_). lia.
Qed.
(** The numbers after a step of thread i from l to l'. *)
Ltac numeric HI Hi l l' ls :=
  let H := fresh in pose proof (i_num _ _ HI) as H; counts Hi l l' ls; unfold num_ok in *; fields; destruct H as (?&?&?&?&?&?&?&?);
  split_and!; try done; try lia; try congruence.

Ltac ow := unfold owing; fields; cbn [failed]; lia.

Section acts.
Context (i : nat) (s : tpw) (ls : list pc).
Context (HI : Inv s ls).
Lemma waiting_other l : ls !! i = Some l -> (forall v, l <> W2 v) -> forall j, j ∈ waiters s -> j <> i /\ j ∈ waiters s.
Proof. intros Hi Hl j Hj. split; [|done]. intros ->. destruct (i_wait _ _ HI _ Hj) as [v Hv]. rewrite Hi in Hv. injection Hv as ->. by apply (Hl v). Qed.

Lemma stat_nohold s' lj : hold lj = false -> (proc s = 2 -> proc s' = 2) -> stat s lj -> stat s' lj.
Proof. destruct lj; cbn; intros; auto; done. Qed.
Lemma stat_same s' lj : sm s' = sm s -> pool s' = pool s -> item s' = item s -> (execs s = 0%nat -> execs s' = 0%nat) -> (execs s = 0%nat -> pend s = 0%nat -> busy s = 0%nat -> pend s' = 0%nat /\ busy s' = 0%nat) ->
  (lj = K3 -> proc s = 2 -> proc s' = 2) -> stat s lj -> stat s' lj.
Proof. intros E1 E2 E3 E4 E5 E6. destruct lj; cbn [stat]; rewrite ?E1, ?E2, ?E3; naive_solver. Qed.
Lemma no_holder j lj : ls !! j = Some lj -> sm s = Opened \/ sm s = Closed -> hold lj = false.
Proof. intros Hj Hs. destruct (hold lj) eqn:E; [|done]. destruct (holder_sm _ _ _ _ HI Hj E), Hs; congruence. Qed.
Lemma no_token : sm s = Opening -> execs s = 0%nat -> pool s = false -> cnt tok ls = 0%nat /\ pend s = 0%nat.
Proof.
  intros H1 H2 H3. destruct (i_num _ _ HI) as (_&Hb&He&_&_&Hp&_). destruct (Hp H3) as [Hp1 Hp2]. split; [|done].
  destruct (decide (cnt tok ls = 0%nat)) as [|Hc]; [done|]. destruct (cnt_ex tok ls) as (j&l&Hj&Hl); [lia|].
  destruct l; try done; first [pose proof (cnt_pos inexec ls j _ Hj eq_refl); lia|pose proof (cnt_pos isK ls j _ Hj eq_refl); lia].
Qed.
Lemma in_exec l : ls !! i = Some l -> inexec l = true -> (0 < execs s)%nat /\ pool s = true /\ item s = true /\ sm s <> Closed.
Proof.
  intros Hi Hl. pose proof (cnt_pos inexec ls i l Hi Hl) as Hp. destruct (i_num _ _ HI) as (_&_&He&Hh&Hsm&_). split; [lia|]. destruct (sm s) eqn:E; [lia| |naive_solver|].
  all: destruct (cnt_ex hold ls) as (j&lj&Hj&Hlj); [lia|]; pose proof (i_stat _ _ HI _ _ Hj) as Hst; destruct lj; try done; cbn in Hst; destruct_and?; first [lia|congruence|split_and!; congruence].
Qed.
Lemma at_k l : ls !! i = Some l -> isK l = true -> (0 < busy s)%nat /\ pool s = true.
Proof. intros Hi Hl. pose proof (cnt_pos isK ls i l Hi Hl) as Hp. destruct (i_num _ _ HI) as (_&Hb&_&_&_&Hpp&_). split; [lia|]. destruct (pool s); [done|]. destruct Hpp; [done|lia]. Qed.
Lemma has_tok l : ls !! i = Some l -> tok l = true -> (proc s = 1 \/ proc s = 2) /\ pend s = 0%nat /\ lost s = 0%nat.
Proof. intros Hi Hl. pose proof (cnt_pos tok ls i l Hi Hl) as Hp. destruct (i_num _ _ HI) as (Ht&_). lia. Qed.

Ltac wt := intros ? ?; left; by eapply waiting_other.
Lemma a_open_begin : ls !! i = Some O0 -> match sm_open_begin s with Done (x, s') => Inv s' (<[i := if x then O1 else ORef]> ls) | _ => False end.
Proof.
  intros Hi. pose proof (i_know _ _ HI _ _ Hi) as Hk. cbn in Hk. unfold sm_open_begin. destruct (sm s) eqn:E.
  1: { apply (quiet s _ ls i O0 O1); auto; fields.
    - numeric HI Hi O0 O1 ls. rewrite E in *. lia.
    - wt.
    - pose proof (i_num _ _ HI) as (?&?&?&?&Hx&?). rewrite E in Hx. cbn. naive_solver.
    - intros j lj Hj Hne. apply stat_nohold; [|done]. eapply no_holder; eauto.
    - counts Hi O0 O1 ls. ow.
    - by rewrite E. }
  all: apply (quiet s _ ls i O0 ORef); auto.
  all: try (numeric HI Hi O0 ORef ls; fail); try wt; try done; try (counts Hi O0 ORef ls; ow); cbn [know]; (split; [done|]); apply during_now; unfold conflict.
  all: apply orb_true_iff.
  2: { left. by apply (i_open _ _ HI). }
  all: right; apply bool_decide_true; pose proof (i_num _ _ HI) as (_&_&_&Hh&_); rewrite E in Hh; destruct (cnt_ex hold ls) as (j&lj&Hj&Hlj); [lia|]; pose proof (i_user _ _ HI j lj Hj) as Hu;
    intros Hf; assert (j ∈ filter (.≠ i) (users (hist s))) as Hin; [|rewrite Hf in Hin; by apply elem_of_nil in Hin]; apply elem_of_list_filter; split; [intros ->; rewrite Hi in Hj; by simplify_eq|apply Hu; by destruct lj].
Qed.
Lemma a_reset l' : ls !! i = Some O1 -> l' = O2 \/ l' = O3 -> match reset_state s with Done (_, s') => Inv s' (<[i := l']> ls) | _ => False end.
Proof.
  intros Hi Hl'. pose proof (i_know _ _ HI _ _ Hi) as Hk. pose proof (i_stat _ _ HI _ _ Hi) as Hs. cbn in Hk, Hs. destruct Hs as (Hs1&Hs2&Hs3&Hs4). unfold reset_state.
  destruct (no_token Hs1 Hs2 Hs3) as [Ht Hp]. pose proof (no_waiter _ _ HI Hs2) as Hw.
  apply (quiet s _ ls i O1 l'); auto; fields; destruct Hl' as [ -> | -> ]; try done; try wt.
  1: numeric HI Hi O1 O2 ls.
  1: numeric HI Hi O1 O3 ls.
  1, 2: intros j lj Hj Hne; pose proof (holder _ _ _ _ _ _ HI Hi Hj Hne eq_refl) as Hh; pose proof (cnt_pos tok ls j lj Hj) as Hc; destruct lj; try done; specialize (Hc eq_refl); lia.
  all: intros [Ho|[Ho|[Ho|Ho]]]; unfold owing; fields; auto.
  all: try (right; right; left; destruct (i_num _ _ HI) as (Hn&_&_&_&_&_&_&[Hl|Hl]); [lia|done]).
  all: destruct (cnt_ex before ls Ho) as (j&lj&Hj&Hlj); pose proof (cnt_pos tok ls j lj Hj) as Hc; destruct lj; try done; specialize (Hc eq_refl); lia.
Qed.
Ltac getk Hi := pose proof (i_know _ _ HI _ _ Hi) as Hk; pose proof (i_stat _ _ HI _ _ Hi) as Hs; cbn in Hk, Hs.
Ltac st_h Hi := let j := fresh in let lj := fresh in let Hj := fresh in let Hne := fresh in intros j lj Hj Hne; apply stat_nohold; [exact (holder _ _ _ _ _ _ HI Hi Hj Hne eq_refl)|done].
Ltac st_s := let j := fresh in let lj := fresh in let Hj := fresh in let Hne := fresh in intros j lj Hj Hne; apply stat_same; fields; try done; try lia.
Ltac qui l l' Hi := apply (quiet s _ ls i l l'); auto; fields; try done; try wt; try (numeric HI Hi l l' ls; fail); try (counts Hi l l' ls; ow).
Lemma a_open_fail : ls !! i = Some O2 -> match sm_open_end i false s with Done (_, s') => Inv s' (<[i := OBad]> ls) | _ => False end.
Proof.
  intros Hi. getk Hi. destruct Hs as (Hs1&Hs2&Hs3&Hs4). unfold sm_open_end. rewrite Hs1. qui O2 OBad Hi.
  - numeric HI Hi O2 OBad ls. rewrite Hs1 in *. lia.
  - st_h Hi.
Qed.
Lemma a_pool l' : ls !! i = Some O3 -> l' = O4 \/ l' = O5 -> match threadpool_create s with Done (_, s') => Inv s' (<[i := l']> ls) | _ => False end.
Proof.
  intros Hi Hl'. getk Hi. destruct Hs as (Hs1&Hs2&Hs3&Hs4). unfold threadpool_create. pose proof (i_num _ _ HI) as (_&_&_&_&_&Hp&_). destruct (Hp Hs3) as [Hp1 Hp2].
  destruct Hl' as [ -> | -> ]; [qui O3 O4 Hi|qui O3 O5 Hi].
  1: numeric HI Hi O3 O4 ls; rewrite Hs1; done.
  1: st_h Hi.
  1: numeric HI Hi O3 O5 ls; rewrite Hs1; done.
  st_h Hi.
Qed.
Lemma a_pool_fail : ls !! i = Some O4 -> match drop_threadpool s with Done (_, s') => Inv s' (<[i := O2]> ls) | _ => False end.
Proof.
  intros Hi. getk Hi. destruct Hs as (Hs1&Hs2&Hs3&Hs4&Hs5&Hs6). unfold drop_threadpool. rewrite decide_True by done. qui O4 O2 Hi.
  - numeric HI Hi O4 O2 ls. rewrite Hs1 in *. done.
  - st_h Hi.
Qed.
Lemma a_item : ls !! i = Some O5 -> match threadpool_create_work_item s with Done (_, s') => Inv s' (<[i := O6]> ls) | _ => False end.
Proof.
  intros Hi. getk Hi. destruct Hs as (Hs1&Hs2&Hs3&Hs4&Hs5&Hs6). unfold threadpool_create_work_item. rewrite Hs3. qui O5 O6 Hi.
  - numeric HI Hi O5 O6 ls. rewrite Hs1 in *. done.
  - st_h Hi.
Qed.
Lemma a_open_end : ls !! i = Some O6 -> match sm_open_end i true s with Done (_, s') => Inv s' (<[i := ORet]> ls) | _ => False end.
Proof.
  intros Hi. getk Hi. destruct Hs as (Hs1&Hs2&Hs3&Hs4). unfold sm_open_end. rewrite Hs1. apply (hist_move s _ ls i O6 ORet (Opens i)); auto; fields; try done; try wt.
  - numeric HI Hi O6 ORet ls. rewrite Hs1 in *. lia.
  - st_h Hi.
  - intros How. left. counts Hi O6 ORet ls. revert How. ow.
  - cbn. by rewrite decide_True.
  - cbn. intros j Hj. rewrite list_lookup_insert_ne; [by apply (i_act _ _ HI)|]. intros <-. apply (i_act _ _ HI) in Hj. congruence.
  - cbn. intros _. by eapply (i_user _ _ HI).
  - cbn. destruct (is_open (hist s)) eqn:E; [|done]. apply (i_open _ _ HI) in E. congruence.
Qed.
Lemma a_close_begin : ls !! i = Some X0 -> match sm_close_begin i s with Done (x, s') => Inv s' (<[i := if x then X1 else XRet]> ls) | _ => False end.
Proof.
  intros Hi. getk Hi. unfold sm_close_begin. destruct (sm s) eqn:E.
  1, 2, 4: qui X0 XRet Hi.
  apply (hist_move s _ ls i X0 X1 (Closes i)); auto; fields; try done; try wt.
  - numeric HI Hi X0 X1 ls. rewrite E in *. lia.
  - destruct (i_num _ _ HI) as (_&_&_&_&Hx&_). rewrite E in Hx. cbn. naive_solver.
  - intros j lj Hj Hne. apply stat_nohold; [|done]. eapply no_holder; eauto.
  - intros How. left. counts Hi X0 X1 ls. revert How. ow.
  - cbn. intros j Hj. rewrite list_lookup_insert_ne; [by apply (i_act _ _ HI)|]. intros <-. apply (i_act _ _ HI) in Hj. congruence.
  - cbn. intros _. by eapply (i_user _ _ HI).
  - cbn. by apply (i_open _ _ HI).
Qed.
Lemma a_drain : ls !! i = Some X1 -> match sm_drain s with Done (_, s') => Inv s' (<[i := X2]> ls) | NoFuel => blk i X1 s | _ => False end.
Proof.
  intros Hi. getk Hi. unfold sm_drain. case_decide as E; [|cbn; lia]. qui X1 X2 Hi. cbn. naive_solver.
Qed.
Lemma a_drop_item : ls !! i = Some X2 -> match drop_work_item s with Done (_, s') => Inv s' (<[i := X3]> ls) | _ => False end.
Proof.
  intros Hi. getk Hi. destruct Hs as (Hs1&Hs2&Hs3&Hs4). unfold drop_work_item. qui X2 X3 Hi.
  - numeric HI Hi X2 X3 ls. rewrite Hs1 in *. done.
  - st_h Hi.
Qed.
Lemma a_drop_pool : ls !! i = Some X3 -> match drop_threadpool s with Done (_, s') => Inv s' (<[i := X4]> ls) | NoFuel => blk i X3 s | _ => False end.
Proof.
  intros Hi. getk Hi. destruct Hs as (Hs1&Hs2&Hs3&Hs4). unfold drop_threadpool. case_decide as E; [|cbn; lia]. destruct E as [E1 E2]. qui X3 X4 Hi.
  - numeric HI Hi X3 X4 ls. rewrite Hs1 in *. done.
  - st_h Hi.
Qed.
Lemma a_close_end : ls !! i = Some X4 -> match sm_close_end s with Done (_, s') => Inv s' (<[i := XRet]> ls) | _ => False end.
Proof.
  intros Hi. getk Hi. destruct Hs as (Hs1&Hs2&Hs3&Hs4). unfold sm_close_end. rewrite Hs1. qui X4 XRet Hi.
  - numeric HI Hi X4 XRet ls. rewrite Hs1 in *. lia.
  - st_h Hi.
Qed.
Lemma a_exec_begin : ls !! i = Some S0 -> match sm_exec_begin s with Done (x, s') => Inv s' (<[i := if x then S1 else SRef]> ls) | _ => False end.
Proof.
  intros Hi. getk Hi. unfold sm_exec_begin. assert (sm s <> Opened -> know i (hist s) True SRef) as Href.
  { intros Hne. cbn. apply during_now. destruct (is_open (hist s)) eqn:Eo; [|done]. by apply (i_open _ _ HI) in Eo. }
  destruct (sm s) eqn:E; [qui S0 SRef Hi; apply Href; congruence|qui S0 SRef Hi; apply Href; congruence| |qui S0 SRef Hi; apply Href; congruence]. qui S0 S1 Hi.
  - numeric HI Hi S0 S1 ls; rewrite E in *; solve [done|lia|tauto].
  - intros j lj Hj Hne. apply stat_nohold; [|done]. eapply no_holder; eauto.
  - cbn. apply during_now. by apply (i_open _ _ HI).
Qed.
Lemma a_try1 : ls !! i = Some S1 -> match cas 2 1 s with Done (x, s') => (x = proc s) /\ Inv s' (<[i := if (x =? 1) || (x =? 2) then LW else S2]> ls) | _ => False end.
Proof.
  intros Hi. getk Hi. unfold cas. split; [done|]. destruct (Z.eqb_spec (proc s) 1) as [E|E]; cbn [orb].
  - qui S1 LW Hi.
    + st_s.
    + cbn. split; [done|]. right. unfold owing. by left.
  - destruct (Z.eqb_spec (proc s) 2) as [E2|E2]; [qui S1 LW Hi|qui S1 S2 Hi].
    cbn. split; [done|]. right. unfold owing. by left.
Qed.
Lemma a_try2 : ls !! i = Some S2 -> match cas 1 0 s with Done (x, s') => Inv s' (<[i := if x =? 0 then T1 else W0 x]> ls) | _ => False end.
Proof.
  intros Hi. getk Hi. unfold cas. destruct (Z.eqb_spec (proc s) 0) as [E|E].
  - qui S2 T1 Hi. st_s.
  - qui S2 (W0 (proc s)) Hi.
Qed.
Lemma a_wake l l' : ls !! i = Some l -> (l = LW /\ l' = E0) \/ (l = T1 /\ l' = T2) \/ (l = K4 /\ l' = K0) \/ (l = K5 /\ l' = KRet) -> match wake_all s with Done (_, s') => Inv s' (<[i := l']> ls) | _ => False end.
Proof.
  intros Hi Hl. unfold wake_all. destruct Hl as [[ -> -> ]|[[ -> -> ]|[[ -> -> ]|[ -> -> ]]]]; getk Hi; [qui LW E0 Hi|qui T1 T2 Hi|qui K4 K0 Hi|qui K5 KRet Hi].
  all: try (intros j Hj; by apply elem_of_nil in Hj).
  cbn in *. destruct Hk as [? [?|Ho]]; split; auto. right. counts Hi LW E0 ls. revert Ho. ow.
Qed.
Lemma a_sched ok : ls !! i = Some T2 -> match threadpool_schedule_work_item i ok s with Done (_, s') => Inv s' (<[i := E0]> ls) | _ => False end.
Proof.
  intros Hi. getk Hi. unfold threadpool_schedule_work_item. destruct (in_exec _ Hi eq_refl) as (He&Hp&Ht&Hsm). destruct (has_tok _ Hi eq_refl) as (Hpr&Hpe&Hl). rewrite Hp, Ht. destruct ok; cbn [andb].
  - qui T2 E0 Hi.
    + numeric HI Hi T2 E0 ls. by destruct (sm s).
    + st_s; congruence.
    + split; [done|]. right. unfold owing. fields. lia.
  - apply (hist_move s _ ls i T2 E0 (Fails i)); auto; fields; try done; try wt.
    + numeric HI Hi T2 E0 ls; [by destruct (sm s)|by right].
    + st_s; congruence.
    + intros _. left. unfold owing. cbn. auto.
    + split; [by apply during_mono|]. right. unfold owing. cbn. auto.
    + cbn. intros j Hj. rewrite list_lookup_insert_ne; [by apply (i_act _ _ HI)|]. intros <-. apply (i_act _ _ HI) in Hj. congruence.
    + cbn. apply (i_open _ _ HI).
Qed.
Lemma a_exec_end : ls !! i = Some E0 -> match sm_exec_end s with Done (_, s') => Inv s' (<[i := SRet]> ls) | _ => False end.
Proof.
  intros Hi. getk Hi. unfold sm_exec_end. destruct (in_exec _ Hi eq_refl) as (He&Hp&Ht&Hsm). destruct (execs s) as [|n] eqn:E; [lia|]. qui E0 SRet Hi.
  - numeric HI Hi E0 SRet ls. by destruct (sm s).
  - st_s.
  - cbn in *. destruct Hk as [? [?|Ho]]; split; auto. right. counts Hi E0 SRet ls. revert Ho. ow.
Qed.
Lemma a_load v : ls !! i = Some (W0 v) -> match load s with Done (x, s') => Inv s' (<[i := if x =? v then W1 v else S1]> ls) | _ => False end.
Proof. intros Hi. getk Hi. unfold load. destruct (proc s =? v); [qui (W0 v) (W1 v) Hi|qui (W0 v) S1 Hi]. Qed.
Lemma a_wait_start v : ls !! i = Some (W1 v) -> v <> 0 -> match wait_start i v s with Done (_, s') => Inv s' (<[i := W2 v]> ls) | _ => False end.
Proof.
  intros Hi Hv. getk Hi. unfold wait_start. destruct (Z.eqb_spec (proc s) v) as [E|E]; [|qui (W1 v) (W2 v) Hi]. qui (W1 v) (W2 v) Hi.
  - intros j Hj. apply elem_of_cons in Hj as [ -> |Hj]; [right; eauto|left]. by eapply waiting_other.
Qed.
Lemma a_wait_end v : ls !! i = Some (W2 v) -> match wait_end i s with Done (_, s') => Inv s' (<[i := W0 v]> ls) | NoFuel => blk i (W2 v) s | _ => False end.
Proof.
  intros Hi. getk Hi. unfold wait_end. case_decide as E; [done|]. qui (W2 v) (W0 v) Hi. intros j Hj. left. split; [|done]. by intros ->.
Qed.
Lemma no_active l : ls !! i = Some l -> tok l = true -> l <> K1 -> active (hist s) = [].
Proof.
  intros Hi Hl Hk. destruct (active (hist s)) as [|j a] eqn:E; [done|]. assert (ls !! j = Some K1) as Hj by (apply (i_act _ _ HI); rewrite E; by left).
  assert (j <> i) as Hne by congruence. by pose proof (sole _ _ _ _ _ _ HI Hi Hj Hne Hl).
Qed.
Lemma a_begin : ls !! i = Some K0 -> match begin_func i s with Done (_, s') => Inv s' (<[i := K1]> ls) | _ => False end.
Proof.
  intros Hi. getk Hi. unfold begin_func. apply (hist_move s _ ls i K0 K1 (Begins i)); auto; fields; try done; try wt.
  - numeric HI Hi K0 K1 ls.
  - eauto.
  - cbn. rewrite (no_active _ Hi eq_refl) by done. intros j [ -> |Hj]%elem_of_cons; [by eapply upd_at|by apply elem_of_nil in Hj].
  - cbn. apply (i_open _ _ HI).
  - cbn. by eapply no_active.
Qed.
Lemma a_end : ls !! i = Some K1 -> match end_func i s with Done (_, s') => Inv s' (<[i := K2]> ls) | _ => False end.
Proof.
  intros Hi. getk Hi. unfold end_func. apply (hist_move s _ ls i K1 K2 (Ends i)); auto; fields; try done; try wt.
  - numeric HI Hi K1 K2 ls.
  - intros How. left. counts Hi K1 K2 ls. revert How. ow.
  - cbn. intros j [Hne Hj]%elem_of_list_filter. rewrite list_lookup_insert_ne by done. by apply (i_act _ _ HI).
  - cbn. apply (i_open _ _ HI).
Qed.
Lemma a_done : ls !! i = Some K2 -> match cas 0 1 s with Done (x, s') => Inv s' (<[i := if x =? 1 then K5 else K3]> ls) | _ => False end.
Proof.
  intros Hi. getk Hi. unfold cas. destruct (has_tok _ Hi eq_refl) as (Hpr&Hpe&Hl). destruct (Z.eqb_spec (proc s) 1) as [E|E]; [|qui K2 K3 Hi; cbn; lia]. qui K2 K5 Hi. st_s.
Qed.
Lemma a_again : ls !! i = Some K3 -> match cas 1 2 s with Done (x, s') => x = 2 /\ Inv s' (<[i := K4]> ls) | _ => False end.
Proof.
  intros Hi. getk Hi. unfold cas. rewrite Hs. cbn [Z.eqb Pos.eqb]. split; [done|]. destruct (has_tok _ Hi eq_refl) as (Hpr&Hpe&Hl). qui K3 K4 Hi.
  st_s. intros ->. by pose proof (sole _ _ _ _ _ _ HI Hi H1 H2 eq_refl).
Qed.
End acts.

Definition post (i : nat) (o : op) : res -> pc -> Prop := fun r l => forall s ls, ls !! i = Some l -> Inv s ls -> exists l', l' = Out /\ Inv (returns worker i o r s) (<[i := l']> ls).
Definition answers (o : op) (r : res) (l : pc) : Prop :=
  match o with
  | Open d m1 m2 => (l = ORet /\ d && m1 && m2 = true /\ r = Int 0) \/ (l = ORef /\ d = true /\ r = Int 1) \/ (l = OBad /\ d && m1 && m2 = false /\ r = Int 1)
  | Close d => l = XRet /\ r = Void
  | Schedule d _ => (l = SRet /\ d = true /\ r = OK) \/ (l = SRef /\ d = true /\ r = INVALID_STATE) \/ (l = Bad /\ d = false /\ r = INVALID_ARGS)
  | Work => l = KRet /\ r = Void
  end.
Lemma ret_ok i o r l : answers o r l -> post i o r l.
Proof.
  intros Ha s ls Hi HI. exists Out. split; [done|]. cbn [returns worker]. pose proof (i_know _ _ HI _ _ Hi) as Hk.
  assert (forall j, j ∈ active (hist s) -> l <> K1 -> <[i := Out]> ls !! j = Some K1) as Hact.
  { intros j Hj Hl. rewrite list_lookup_insert_ne; [by apply (i_act _ _ HI)|]. intros <-. apply (i_act _ _ HI) in Hj. congruence. }
  destruct o as [d m1 m2|d|d ok|]; cbn [answers] in Ha.
  - apply (hist_move s _ ls i l Out (Returned i (Open d m1 m2) r)); auto; fields; try done.
    + destruct Ha as [(->&_)|[(->&_)|(->&_)]]; [numeric HI Hi ORet Out ls|numeric HI Hi ORef Out ls|numeric HI Hi OBad Out ls].
    + intros j Hj. left. eapply waiting_other; eauto. destruct Ha as [(->&_)|[(->&_)|(->&_)]]; done.
    + intros How. left. destruct Ha as [(->&_)|[(->&_)|(->&_)]]; [counts Hi ORet Out ls|counts Hi ORef Out ls|counts Hi OBad Out ls]; revert How; ow.
    + cbn. intros j Hj. apply Hact; [done|]. destruct Ha as [(->&_)|[(->&_)|(->&_)]]; done.
    + cbn. apply (i_open _ _ HI).
    + cbn. intros j Hne Hj. by apply elem_of_list_filter.
    + cbn [event_ok]. destruct Ha as [(->&->&->)|[(->&->&->)|(->&->&->)]]; cbn [know] in Hk; auto. cbn [andb]. destruct Hk as [Hk1 Hk2]. destruct (m1 && m2); auto.
  - destruct Ha as [-> ->]. apply (hist_move s _ ls i XRet Out (Returned i (Close d) Void)); auto; fields; try done.
    + numeric HI Hi XRet Out ls.
    + intros j Hj. left. by eapply waiting_other.
    + intros How. left. counts Hi XRet Out ls. revert How; ow.
    + cbn. apply (i_open _ _ HI).
    + cbn. intros j Hne Hj. by apply elem_of_list_filter.
  - assert (owing s ls -> owing (set_hist (Returned i (Schedule d ok) r :: hist s) s) (<[i := Out]> ls)) as How.
    { intros How. destruct Ha as [(->&_)|[(->&_)|(->&_)]]; [counts Hi SRet Out ls|counts Hi SRef Out ls|counts Hi Bad Out ls]; revert How; ow. }
    apply (hist_move s _ ls i l Out (Returned i (Schedule d ok) r)); auto; fields; try done.
    + destruct Ha as [(->&_)|[(->&_)|(->&_)]]; [numeric HI Hi SRet Out ls|numeric HI Hi SRef Out ls|numeric HI Hi Bad Out ls].
    + intros j Hj. left. eapply waiting_other; eauto. destruct Ha as [(->&_)|[(->&_)|(->&_)]]; done.
    + destruct Ha as [(->&_&->)|[(->&_&->)|(->&_&->)]]; cbn [due]; auto. cbn [know] in Hk. destruct Hk as [_ [Hb|Hk]]; [|auto]. rewrite Hb. auto.
    + cbn. intros j Hj. apply Hact; [done|]. destruct Ha as [(->&_)|[(->&_)|(->&_)]]; done.
    + cbn. apply (i_open _ _ HI).
    + cbn [event_ok]. destruct Ha as [(->&->&->)|[(->&->&->)|(->&->&->)]]; cbn [know] in Hk; auto. left. by destruct Hk.
  - destruct Ha as [-> ->]. apply (hist_move s _ ls i KRet Out (Returned i Work Void)); auto; fields; try done.
    + numeric HI Hi KRet Out ls.
    + intros j Hj. left. by eapply waiting_other.
    + intros j lj Hj Hne. apply stat_same; fields; try done; lia.
    + intros How. left. counts Hi KRet Out ls. revert How; ow.
    + cbn. apply (i_open _ _ HI).
Qed.
Ltac go act := let s := fresh "s" in let ls := fresh "ls" in let Hi := fresh "Hi" in let HI := fresh "HI" in intros s ls Hi HI; pose proof act as Hact.
Ltac act_step lem := apply wpa_act; [shp|]; intros s0 ls0 Hi0 HI0; pose proof (lem _ _ _ HI0 Hi0) as Hact.
Ltac fin := apply wpa_ret; [shp|apply ret_ok; cbn; auto 10].
Lemma open_ok i m1 m2 : runs i (Open true m1 m2) (tp_worker_thread_open i true m1 m2) O0.
Proof.
  unfold tp_worker_thread_open. cbn [negb]. act_step a_open_begin. destruct (sm_open_begin s0) as [[[] s1]| |]; [|..|done|done]; cbn [negb].
  2: { exists ORef. split; [done|]. fin. }
  exists O1. split; [done|]. clear. destruct m1; cbn [negb].
  - apply wpa_act; [shp|]. intros s0 ls0 Hi0 HI0. destruct m2.
    + pose proof (a_reset _ _ _ HI0 O3 Hi0 (or_intror eq_refl)) as Hact. destruct (reset_state s0) as [[[] s1]| |]; [|done..]. exists O3. split; [done|]. clear. cbn [negb].
      apply wpa_act; [shp|]. intros s0 ls0 Hi0 HI0. pose proof (a_pool _ _ _ HI0 O5 Hi0 (or_intror eq_refl)) as Hact. destruct (threadpool_create s0) as [[[] s1]| |]; [|done..]. exists O5. split; [done|]. clear.
      act_step a_item. destruct (threadpool_create_work_item s0) as [[[] s1]| |]; [|done..]. exists O6. split; [done|]. clear.
      act_step a_open_end. destruct (sm_open_end i true s0) as [[[] s1]| |]; [|done..]. exists ORet. split; [done|]. clear. fin.
    + pose proof (a_reset _ _ _ HI0 O3 Hi0 (or_intror eq_refl)) as Hact. destruct (reset_state s0) as [[[] s1]| |]; [|done..]. exists O3. split; [done|]. clear. cbn [negb].
      apply wpa_act; [shp|]. intros s0 ls0 Hi0 HI0. pose proof (a_pool _ _ _ HI0 O4 Hi0 (or_introl eq_refl)) as Hact. destruct (threadpool_create s0) as [[[] s1]| |]; [|done..]. exists O4. split; [done|]. clear.
      act_step a_pool_fail. destruct (drop_threadpool s0) as [[[] s1]| |]; [|done..]. exists O2. split; [done|]. clear.
      act_step a_open_fail. destruct (sm_open_end i false s0) as [[[] s1]| |]; [|done..]. exists OBad. split; [done|]. clear. fin.
  - apply wpa_act; [shp|]. intros s0 ls0 Hi0 HI0. pose proof (a_reset _ _ _ HI0 O2 Hi0 (or_introl eq_refl)) as Hact. destruct (reset_state s0) as [[[] s1]| |]; [|done..]. exists O2. split; [done|]. clear.
    act_step a_open_fail. destruct (sm_open_end i false s0) as [[[] s1]| |]; [|done..]. exists OBad. split; [done|]. clear. fin.
Qed.
Lemma close_ok i : runs i (Close true) (tp_worker_thread_close_internal i) X0.
Proof.
  unfold tp_worker_thread_close_internal. act_step a_close_begin. destruct (sm_close_begin i s0) as [[[] s1]| |]; [|..|done|done].
  2: { exists XRet. split; [done|]. fin. }
  exists X1. split; [done|]. clear. act_step a_drain. destruct (sm_drain s0) as [[[] s1]| |]; [|done..]. exists X2. split; [done|]. clear.
  act_step a_drop_item. destruct (drop_work_item s0) as [[[] s1]| |]; [|done..]. exists X3. split; [done|]. clear.
  act_step a_drop_pool. destruct (drop_threadpool s0) as [[[] s1]| |]; [|done..]. exists X4. split; [done|]. clear.
  act_step a_close_end. destruct (sm_close_end s0) as [[[] s1]| |]; [|done..]. exists XRet. split; [done|]. clear. fin.
Qed.
Lemma work_ok i : runs i Work (tp_worker_on_threadpool_work i) K0.
Proof.
  eapply wp_loop with (A := fun p l => p = tp_worker_on_threadpool_work i /\ l = K0); [|by apply wpa_again]. intros p l [-> ->]. rewrite (frob_eq (tp_worker_on_threadpool_work i)). cbn [frob tp_worker_on_threadpool_work].
  split; [shp|]. intros s0 ls0 Hi0 HI0. pose proof (a_begin _ _ _ HI0 Hi0) as Hact. destruct (begin_func i s0) as [[[] s1]| |]; [|done..]. exists K1. split; [done|]. clear.
  act_step a_end. destruct (end_func i s0) as [[[] s1]| |]; [|done..]. exists K2. split; [done|]. clear.
  act_step a_done. destruct (cas 0 1 s0) as [[x s1]| |]; [|done..]. destruct (x =? 1).
  - exists K5. split; [done|]. clear. apply wpa_act; [shp|]. intros s0 ls0 Hi0 HI0. pose proof (a_wake _ _ _ HI0 K5 KRet Hi0 ltac:(auto)) as Hact. destruct (wake_all s0) as [[[] s1]| |]; [|done..].
    exists KRet. split; [done|]. clear. fin.
  - exists K3. split; [done|]. clear. act_step a_again. destruct (cas 1 2 s0) as [[x s1]| |]; [|done..]. destruct Hact as [-> Hact]. cbn [Z.eqb Pos.eqb]. exists K4. split; [done|]. clear.
    apply wpa_act; [shp|]. intros s0 ls0 Hi0 HI0. pose proof (a_wake _ _ _ HI0 K4 K0 Hi0 ltac:(auto)) as Hact. destruct (wake_all s0) as [[[] s1]| |]; [|done..].
    exists K0. split; [done|]. clear. apply wpa_again. split; [exact (frob_eq (tp_worker_on_threadpool_work i))|done].
Qed.
Lemma schedule_ok i ok : runs i (Schedule true ok) (tp_worker_thread_schedule_process i true ok) S0.
Proof.
  unfold tp_worker_thread_schedule_process. cbn [negb]. act_step a_exec_begin. destruct (sm_exec_begin s0) as [[[] s1]| |]; [|..|done|done]; cbn [negb].
  2: { exists SRef. split; [done|]. fin. }
  exists S1. split; [done|]. clear.
  eapply wp_loop with (A := fun p l => (p = schedule_loop i ok None /\ l = S1) \/ exists v, p = schedule_loop i ok (Some v) /\ l = W0 v /\ v <> 0); [|apply wpa_again; by left].
  intros p l [[-> ->]|(v&->&->&Hv)].
  - rewrite (frob_eq (schedule_loop i ok None)). cbn [frob schedule_loop]. split; [shp|]. intros s0 ls0 Hi0 HI0. pose proof (a_try1 _ _ _ HI0 Hi0) as Hact. destruct (cas 2 1 s0) as [[x s1]| |]; [|done..]. destruct Hact as [_ Hact].
    destruct ((x =? 1) || (x =? 2)).
    + exists LW. split; [done|]. clear. apply wpa_act; [shp|]. intros s0 ls0 Hi0 HI0. pose proof (a_wake _ _ _ HI0 LW E0 Hi0 ltac:(auto)) as Hact. destruct (wake_all s0) as [[[] s1]| |]; [|done..].
      exists E0. split; [done|]. clear. act_step a_exec_end. destruct (sm_exec_end s0) as [[[] s1]| |]; [|done..]. exists SRet. split; [done|]. clear. fin.
    + exists S2. split; [done|]. clear. act_step a_try2. destruct (cas 1 0 s0) as [[x s1]| |]; [|done..]. destruct (Z.eqb_spec x 0) as [->|Hx].
      * exists T1. split; [done|]. clear. apply wpa_act; [shp|]. intros s0 ls0 Hi0 HI0. pose proof (a_wake _ _ _ HI0 T1 T2 Hi0 ltac:(auto)) as Hact. destruct (wake_all s0) as [[[] s1]| |]; [|done..].
        exists T2. split; [done|]. clear. apply wpa_act; [shp|]. intros s0 ls0 Hi0 HI0. pose proof (a_sched _ _ _ HI0 ok Hi0) as Hact. destruct (threadpool_schedule_work_item i ok s0) as [[[] s1]| |]; [|done..].
        exists E0. split; [done|]. clear. act_step a_exec_end. destruct (sm_exec_end s0) as [[[] s1]| |]; [|done..]. exists SRet. split; [done|]. clear. fin.
      * exists (W0 x). split; [done|]. apply wpa_again. right. eauto.
  - rewrite (frob_eq (schedule_loop i ok (Some v))). cbn [frob schedule_loop]. split; [shp|]. intros s0 ls0 Hi0 HI0. pose proof (a_load _ _ _ HI0 v Hi0) as Hact. destruct (load s0) as [[x s1]| |]; [|done..]. destruct (x =? v).
    + exists (W1 v). split; [done|]. clear -Hv. apply wpa_act; [shp|]. intros s0 ls0 Hi0 HI0. pose proof (a_wait_start _ _ _ HI0 v Hi0 Hv) as Hact. destruct (wait_start i v s0) as [[[] s1]| |]; [|done..].
      exists (W2 v). split; [done|]. clear -Hv. apply wpa_act; [shp|]. intros s0 ls0 Hi0 HI0. pose proof (a_wait_end _ _ _ HI0 v Hi0) as Hact. destruct (wait_end i s0) as [[[] s1]| |]; [|done..].
      exists (W0 v). split; [done|]. apply wpa_again. right. eauto.
    + exists S1. split; [done|]. apply wpa_again. by left.
Qed.

Lemma conflict_users i h o : conflict i (Called i o :: h) = conflict i h.
Proof. unfold conflict. destruct o; cbn [is_open users]; rewrite ?filter_cons, ?decide_False by auto; done. Qed.
Lemma call_move s ls i o l' : Inv s ls -> ls !! i = Some Out -> (match o with Work => False | _ => True end) -> know i (Called i o :: hist s) False l' -> stat s l' -> tok l' = false -> isK l' = false -> inexec l' = false -> hold l' = false -> isK5 l' = false -> before l' = false ->
  (user l' = true -> i ∈ users (Called i o :: hist s)) -> Inv (set_hist (Called i o :: hist s) s) (<[i := l']> ls).
Proof.
  intros HI Hi Ho Hk Hs H1 H2 H3 H4 H5 H6 Hu. apply (hist_move s _ ls i Out l' (Called i o)); auto; fields; try done.
  - pose proof (i_num _ _ HI) as Hn. rewrite !(cnt_same _ ls i Out l' Hi) by (by rewrite ?H1, ?H2, ?H3, ?H4, ?H5). done.
  - intros j Hj. left. by eapply waiting_other.
  - intros How. left. unfold owing. rewrite (cnt_same before ls i Out l' Hi) by done. exact How.
  - eapply know_ow; [|exact Hk]. done.
  - intros j Hj. rewrite list_lookup_insert_ne; [by apply (i_act _ _ HI)|]. intros <-. apply (i_act _ _ HI) in Hj. congruence.
  - destruct o; cbn; apply (i_open _ _ HI).
  - intros j Hne Hj. destruct o; cbn; auto; by right.
Qed.
Lemma call_ok i o s s' ls l : ls !! i = Some l -> l = Out -> Inv s ls -> calls worker i o s = Some s' -> exists l', Inv s' (<[i := l']> ls) /\ runs i o (code worker i o) l'.
Proof.
  intros Hi -> HI Hc. destruct o as [d m1 m2|d|d ok|]; cbn [calls worker code] in *; simplify_eq.
  - destruct d.
    + exists O0. split; [|apply open_ok]. apply call_move; try done. { cbn. by rewrite decide_True. } intros _. cbn. by left.
    + exists OBad. split; [|fin]. apply call_move; try done. { cbn. by rewrite decide_True. } intros _. cbn. by left.
  - destruct d.
    + exists X0. split; [|apply close_ok]. apply call_move; try done. intros _. cbn. by left.
    + exists XRet. split; [|fin]. apply call_move; try done. intros _. cbn. by left.
  - destruct d.
    + exists S0. split; [|apply schedule_ok]. by apply call_move.
    + exists Bad. split; [|fin]. by apply call_move.
  - destruct (pool s) eqn:Ep; [|done]. destruct (pend s) as [|n] eqn:En; [done|]. simplify_eq. exists K0. split; [|apply work_ok].
    apply (hist_move s _ ls i Out K0 (Called i Work)); auto; fields; try done.
    + pose proof (i_num _ _ HI) as Hn. counts Hi Out K0 ls. unfold num_ok in *. fields. destruct Hn as (?&?&?&?&?&?&?&?). split_and!; try done; try lia. by destruct (sm s); rewrite ?Ep in *.
    + intros j Hj. left. by eapply waiting_other.
    + intros j lj Hj Hne. apply stat_same; fields; try done. lia.
    + intros How. left. counts Hi Out K0 ls. ow.
    + cbn. intros j Hj. rewrite list_lookup_insert_ne; [by apply (i_act _ _ HI)|]. intros <-. apply (i_act _ _ HI) in Hj. congruence.
    + cbn. apply (i_open _ _ HI).
Qed.
Lemma env_ok s s' ls : Inv s ls -> env worker s s' -> Inv s' ls.
Proof.
  intros [] (w&Hw&->). split; auto; fields; auto.
  - destruct i_num0 as (?&?&?&?&?&?&Hx&?). split_and!; try done. intros Hne. apply Hx. intros E. rewrite E in Hw. destruct w as [|j w]; [done|]. by apply (Hw j), elem_of_nil in Hne || (assert (j ∈ @nil nat) as Hj by (apply Hw; by left); by apply elem_of_nil in Hj).
Qed.
Lemma init_ok e f m1 m2 s0 n : tp_worker_thread_create e f m1 m2 = Some s0 -> Inv s0 (replicate n Out).
Proof.
  unfold tp_worker_thread_create. repeat case_match; try done. intros [= <-]. split; fields; try done.
  - rewrite !cnt_replicate by done. unfold num_ok. fields. split_and!; auto.
  - intros j Hj. by apply elem_of_nil in Hj.
  - intros j l [-> _]%lookup_replicate. done.
  - intros j l [-> _]%lookup_replicate. done.
  - intros j Hj. by apply elem_of_nil in Hj.
  - intros j l [-> _]%lookup_replicate. done.
Qed.
Section reached.
Context (e f m1 m2 : bool) (s0 : tpw) (n : nat) (c : tpw * list (thread tpw op res)).
Context (Hcr : tp_worker_thread_create e f m1 m2 = Some s0) (Hr : reachable worker s0 n c).
Lemma reach : conf_ok worker Inv (.= Out) blk shape c.
Proof. eapply (reach_ok worker Inv (.= Out) blk shape) with (l0 := Out); [exact call_ok|exact env_ok|done| |exact Hr]. by eapply init_ok. Qed.
Lemma history later ev before : hist c.1 = later ++ ev :: before -> event_ok ev before.
Proof. intros Hh. destruct reach as (ls&_&HI&_). eapply all_ok_at. rewrite <-Hh. apply HI. Qed.
Lemma no_crash i : ~ crashed c i.
Proof. eapply ok_no_crash, reach. Qed.
Lemma runner ls j l : length ls = length c.2 -> (forall i t l, c.2 !! i = Some t -> ls !! i = Some l -> thr_ok worker Inv (.= Out) blk shape i t l) -> Inv c.1 ls -> ls !! j = Some l -> l <> Out -> blk j l c.1 = False ->
  exists o p, c.2 !! j = Some (Running o p) /\ ~ blocked c j /\ shape o p l.
Proof.
  intros Hlen Hts HI Hj Hl Hb. assert (exists t, c.2 !! j = Some t) as [t Ht] by (apply lookup_lt_is_Some_2; rewrite <-Hlen; by eapply lookup_lt_Some). pose proof (Hts _ _ _ Ht Hj) as Hok.
  destruct t as [|o p]; [done|]. exists o, p. split_and!; [done| |by eapply ok_shape].
  intros Hbl. destruct (ok_blocked _ _ _ _ _ _ _ _ Hlen HI Hts Hbl) as (l'&Hl'&Hx). rewrite Hj in Hl'. injection Hl' as <-. by rewrite Hb in Hx.
Qed.
(** Who has to start the worker function next. *)
Lemma responsible : failed (hist c.1) = false -> proc c.1 <> 0 -> (0 < pend c.1)%nat \/ exists j o p, c.2 !! j = Some (Running o p) /\ ~ blocked c j /\ (o = Work \/ exists ok, o = Schedule true ok).
Proof.
  intros Hf Hp. destruct reach as (ls&Hlen&HI&Hts). destruct (decide (pend c.1 = 0%nat)) as [E|]; [right|lia].
  destruct (i_num _ _ HI) as (Ht&_&_&_&_&_&_&[Hl|Hl]); [|congruence]. destruct (cnt_ex tok ls) as (j&l&Hj&Htk); [lia|].
  destruct (runner ls j l) as (o&p&H1&H2&H3); auto; [by destruct l|by destruct l|]. exists j, o, p. split_and!; auto. apply H3. auto.
Qed.
Lemma progress : failed (hist c.1) = false -> due (hist c.1) = true -> (0 < pend c.1)%nat \/ exists j o p, c.2 !! j = Some (Running o p) /\ ~ blocked c j /\ (o = Work \/ exists ok, o = Schedule true ok).
Proof.
  intros Hf Hd. destruct reach as (ls&Hlen&HI&Hts). destruct (i_due _ _ HI Hd) as [Hp|[Hp|[Hp|Hp]]]; [apply responsible; [done|lia]|by left|congruence|].
  apply responsible; [done|]. destruct (cnt_ex TpwProofs.before ls Hp) as (j&l&Hj&Hl). destruct (has_tok _ _ _ HI l Hj); [by destruct l|lia].
Qed.
Lemma no_deadlock i : failed (hist c.1) = false -> blocked c i -> (0 < pend c.1)%nat \/ exists j o p, c.2 !! j = Some (Running o p) /\ ~ blocked c j.
Proof.
  intros Hf Hb. pose proof reach as (ls&Hlen&HI&Hts).
  assert (forall v j, ls !! j = Some (W2 v) -> j ∈ waiters c.1 -> (0 < pend c.1)%nat \/ exists j o p, c.2 !! j = Some (Running o p) /\ ~ blocked c j) as HW.
  { intros v j Hj Hw. destruct (decide (proc c.1 = 0)) as [Hp|Hp].
    - destruct (i_num _ _ HI) as (_&_&_&_&_&_&Hx&_). destruct Hx as [?|Hx]; [intros E; rewrite E in Hw; by apply elem_of_nil in Hw|done|].
      right. destruct (cnt_ex isK5 ls Hx) as (k&l&Hk&Hl). destruct l; try done. destruct (runner ls k K5) as (o&p&H1&H2&H3); eauto 10.
    - destruct (responsible Hf Hp) as [|(k&o&p&?&?&?)]; eauto 10. }
  destruct (ok_blocked _ _ _ _ _ _ _ _ Hlen HI Hts Hb) as (l&Hl&Hx). destruct l; try done; cbn in Hx.
  - destruct (i_num _ _ HI) as (_&_&He&_). destruct (cnt_ex inexec ls) as (j&lj&Hj&Hlj); [lia|].
    destruct lj as [| | | | | | | | | | | | | | | | | | | | | | | | | | |v|v|v| | | | | | |] eqn:El; try done; rewrite <-El in Hj.
    all: try (destruct (runner ls j lj) as (o&p&H1&H2&H3); auto; [by subst|by subst|]; by eauto 10).
    destruct (decide (j ∈ waiters c.1)) as [Hw|Hw]; [subst lj; by eapply HW|]. right.
    assert (exists t, c.2 !! j = Some t) as [t Ht] by (apply lookup_lt_is_Some_2; rewrite <-Hlen; by eapply lookup_lt_Some). pose proof (Hts _ _ _ Ht Hj) as Hok.
    destruct t as [|o p]; [cbn in Hok; congruence|]. exists j, o, p. split; [done|]. intros Hbl. destruct (ok_blocked _ _ _ _ _ _ _ _ Hlen HI Hts Hbl) as (l'&Hl'&Hx'). rewrite Hj in Hl'. injection Hl' as <-. by subst lj.
  - destruct Hx as [Hx|Hx]; [by left|]. right. destruct (i_num _ _ HI) as (_&Hbz&_). destruct (cnt_ex isK ls) as (j&lj&Hj&Hlj); [lia|].
    destruct (runner ls j lj) as (o&p&H1&H2&H3); auto; [by destruct lj|by destruct lj|]. eauto 10.
  - by eapply HW.
Qed.
(** While it is closed and nobody opens or closes it, nothing runs and nothing is scheduled. *)
Lemma closed_idle : is_open (hist c.1) = false -> users (hist c.1) = [] -> pend c.1 = 0%nat /\ active (hist c.1) = [] /\ forall j p, c.2 !! j <> Some (Running Work p).
Proof.
  intros Ho Hu. pose proof reach as (ls&Hlen&HI&Hts). pose proof (i_num _ _ HI) as (_&Hb&_&Hh&Hm&Hp&_).
  assert (cnt hold ls = 0%nat) as Hz.
  { destruct (decide (cnt hold ls = 0%nat)) as [|Hne]; [done|]. destruct (cnt_ex hold ls) as (j&l&Hj&Hl); [lia|]. pose proof (i_user _ _ HI j l Hj) as Hx. rewrite Hu in Hx.
    by apply elem_of_nil in Hx; [|destruct l]. }
  assert (sm c.1 = Closed) as Hs. { destruct (sm c.1) eqn:E; [done|lia| |lia]. by rewrite (proj2 (i_open _ _ HI) E) in Ho. }
  rewrite Hs in Hm. destruct Hm as (Hm&_). destruct (Hp Hm) as [Hp1 Hp2]. split_and!; [done|..].
  - destruct (active (hist c.1)) as [|j a] eqn:E; [done|]. assert (ls !! j = Some K1) as Hj by (apply (i_act _ _ HI); rewrite E; by left). pose proof (cnt_pos isK ls j _ Hj eq_refl). lia.
  - intros j p Hj. assert (exists l, ls !! j = Some l) as [l Hl] by (apply lookup_lt_is_Some_2; rewrite Hlen; by eapply lookup_lt_Some). destruct (ok_shape _ _ _ _ _ _ _ _ _ (Hts _ _ _ Hj Hl)) as (_&Hk&_).
    pose proof (cnt_pos isK ls j _ Hl (proj2 Hk eq_refl)). lia.
Qed.
End reached.
