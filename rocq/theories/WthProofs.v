(** Proofs about WORKER_THREAD. *)
From Verif Require Import Common Prog Conc ConcLists WthModel WthSpec.
Local Open Scope Z_scope.

Inductive pc :=
| Out | Bad
| O0 | O1 | O2 | O3 | O4 | ORet | ORef | OBad
| X0 | X1 | X2 | X3 | X4 | X5 | XRet
| S0 | S1 | S2 | S3 | SRet | SRef
| K0 | K1 | K2 | K3 | K4 | K5 | K6 | KRet.
Definition isK (l : pc) : bool := match l with K0 | K1 | K2 | K3 | K4 | K5 | K6 | KRet => true | _ => false end.
Definition before (l : pc) : bool := match l with K4 | K5 => true | _ => false end.
Definition inexec (l : pc) : bool := match l with S1 | S2 | S3 => true | _ => false end.
Definition hold (l : pc) : bool := match l with O1 | O2 | O3 | O4 | X1 | X2 | X3 | X4 | X5 => true | _ => false end.
Definition wakes (l : pc) : bool := match l with S2 | X3 => true | _ => false end.
Definition user (l : pc) : bool := match l with O0 | O1 | O2 | O3 | O4 | ORet | ORef | OBad | X0 | X1 | X2 | X3 | X4 | X5 | XRet => true | _ => false end.

Definition owing (s : wth) (ls : list pc) : Prop := sm s = Opened /\ (state s = 1 \/ (0 < cnt before ls)%nat).
(** What a thread at l knows of the rest of the state. *)
Definition stat (s : wth) (l : pc) : Prop :=
  match l with
  | O1 => sm s = Opening /\ execs s = 0%nat /\ spawn s = 0%nat /\ alive s = 0%nat
  | O2 | O3 => sm s = Opening /\ execs s = 0%nat /\ spawn s = 0%nat /\ alive s = 0%nat /\ state s = 0
  | O4 => sm s = Opening /\ execs s = 0%nat /\ (spawn s + alive s = 1)%nat /\ state s <> 2
  | X1 => sm s = Closing /\ state s <> 2
  | X2 => sm s = Closing /\ execs s = 0%nat
  | X3 | X4 => sm s = Closing /\ execs s = 0%nat /\ state s = 2
  | X5 => sm s = Closing /\ execs s = 0%nat /\ spawn s = 0%nat /\ alive s = 0%nat
  | KRet => state s = 2
  | _ => True
  end.
Definition conflict (i : nat) (h : list event) : bool := is_open h || bool_decide (filter (.≠ i) (users h) ≠ []).
(** What it knows of what has happened. *)
Definition know (i : nat) (h : list event) (op ow : Prop) (l : pc) : Prop :=
  match l with
  | S1 => during is_open i h = true /\ (served true i h = true \/ op)
  | S2 | S3 | SRet => during is_open i h = true /\ (served true i h = true \/ ow)
  | SRef => during (fun h => negb (is_open h)) i h = true
  | O0 | O1 | O2 | O3 | O4 | OBad => opened_by i h = false
  | ORef => opened_by i h = false /\ during (conflict i) i h = true
  | ORet => opened_by i h = true
  | _ => True
  end.
Fixpoint all_ok (h : list event) : Prop := match h with [] => True | e :: h => event_ok e h /\ all_ok h end.
Definition num_ok (s : wth) (cK cex chold cwk : nat) : Prop :=
  (state s = 0 \/ state s = 1 \/ state s = 2) /\
  alive s = cK /\ execs s = cex /\ chold = (match sm s with Opening | Closing => 1 | _ => 0 end)%nat /\
  match sm s with Closed => spawn s = 0%nat /\ alive s = 0%nat /\ execs s = 0%nat | Opened => (spawn s + alive s = 1)%nat /\ state s <> 2 | _ => True end /\
  (spawn s + alive s <= 1)%nat /\
  (waiters s <> [] -> state s = 0 \/ (0 < cwk)%nat).
Notation nums s ls := (num_ok s (cnt isK ls) (cnt inexec ls) (cnt hold ls) (cnt wakes ls)).
Record Inv (s : wth) (ls : list pc) : Prop := {
  i_num : nums s ls;
  i_wait : waiters s = [] \/ exists j, waiters s = [j] /\ ls !! j = Some K3;
  i_stat : forall j l, ls !! j = Some l -> stat s l;
  i_know : forall j l, ls !! j = Some l -> know j (hist s) (sm s = Opened) (owing s ls) l;
  i_due : due true (hist s) = true -> owing s ls;
  i_act : forall j, j ∈ active (hist s) -> ls !! j = Some K6;
  i_open : is_open (hist s) = true <-> sm s = Opened;
  i_user : forall j l, ls !! j = Some l -> user l = true -> j ∈ users (hist s);
  i_ev : all_ok (hist s);
}.
Definition blk (i : nat) (l : pc) (s : wth) : Prop :=
  match l with K3 => i ∈ waiters s | X1 => (0 < execs s)%nat | X4 => (0 < spawn s)%nat \/ (0 < alive s)%nat | _ => False end.
Definition shape (o : op) (p : prog wth res) (l : pc) : Prop := (isK l = true <-> o = Worker) /\ (inexec l = true -> o = Schedule true) /\ l <> Out.
Ltac shp := unfold shape; cbn; split_and!; try done; auto.
Notation runs := (runs_ok worker Inv (.= Out) blk shape).

(** Histories. *)
Definition caller (e : event) : option nat := match e with Called i _ => Some i | _ => None end.
Lemma during_mono P i e h : caller e <> Some i -> during P i h = true -> during P i (e :: h) = true.
Proof. intros He H. cbn [during]. destruct e; try (rewrite H; apply orb_true_r). cbn in He. rewrite decide_False by congruence. rewrite H. apply orb_true_r. Qed.
Lemma during_now P i h : P h = true -> during P i h = true.
Proof. intros H. destruct h; cbn [during]; by rewrite H. Qed.
Lemma served_mono i e h : caller e <> Some i -> served true i h = true -> served true i (e :: h) = true.
Proof. intros He H. destruct e; cbn [served]; try done. cbn in He. by rewrite decide_False by congruence. Qed.
Lemma opened_other i e h : caller e <> Some i -> (match e with Opens j => j <> i | _ => True end) -> opened_by i (e :: h) = opened_by i h.
Proof. intros He H. destruct e; cbn [opened_by]; try done; cbn in He; by rewrite decide_False by congruence. Qed.
(** Everything that was due is served by e, or is still going to be. *)
Definition serves (e : event) : bool := match e with Begins _ | Closes _ => true | _ => false end.
Lemma know_mono j e h (op op' ow ow' : Prop) l : caller e <> Some j -> (match e with Opens k => k <> j | _ => True end) -> (op -> op' \/ serves e = true) -> (ow -> ow' \/ serves e = true) ->
  know j h op ow l -> know j (e :: h) op' ow' l.
Proof.
  intros He Ho Hop How. assert (serves e = true -> served true j (e :: h) = true) as Hs by (by destruct e).
  destruct l; cbn [know]; try done; rewrite ?(opened_other _ _ _ He Ho); try done; try (by apply during_mono).
  1: intros [? ?]; split; [done|by apply during_mono].
  all: intros [? [Hb|Hb]]; (split; [by apply during_mono|]); [left; by apply served_mono|].
  1: destruct (Hop Hb); auto.
  all: destruct (How Hb); auto.
Qed.
Lemma know_ow j h (op op' ow ow' : Prop) l : (op -> op') -> (ow -> ow') -> know j h op ow l -> know j h op' ow' l.
Proof. intros Hop How. destruct l; cbn [know]; try done; naive_solver. Qed.
Lemma all_ok_at pre e h : all_ok (pre ++ e :: h) -> event_ok e h.
Proof. induction pre as [|x pre IH]; cbn; intros [? ?]; auto. Qed.

(** One step of thread i. *)
Lemma quiet s s' ls i l l' : Inv s ls -> ls !! i = Some l -> hist s' = hist s ->
  nums s' (<[i := l']> ls) ->
  (waiters s' = [] \/ (waiters s' = waiters s /\ i ∉ waiters s) \/ (waiters s' = [i] /\ l' = K3)) ->
  stat s' l' -> (forall j lj, ls !! j = Some lj -> j <> i -> stat s lj -> stat s' lj) ->
  (owing s ls -> owing s' (<[i := l']> ls)) -> know i (hist s) (sm s' = Opened) (owing s' (<[i := l']> ls)) l' ->
  (sm s = Opened <-> sm s' = Opened) -> l <> K6 -> user l' = user l ->
  Inv s' (<[i := l']> ls).
Proof.
  intros [] Hi Hh Hn Hw Hs Hso How Hk Hsm HK Hu. split; rewrite ?Hh; auto.
  - destruct Hw as [?|[[-> Hni]|[-> ->]]]; [by left| |right; exists i; split; [done|by eapply upd_at]].
    destruct i_wait0 as [->|(j&E&Hj)]; [by left|]. right. exists j. split; [done|]. rewrite list_lookup_insert_ne; [done|]. intros <-. apply Hni. rewrite E. by left.
  - apply thr_upd; [done|]. intros j lj Hj Hne. eauto.
  - apply thr_upd; [done|]. intros j lj Hj Hne. eapply know_ow; [| |by apply i_know0]; [by rewrite Hsm|done].
  - intros j Hj. rewrite list_lookup_insert_ne; [auto|]. intros <-. specialize (i_act0 _ Hj). congruence.
  - by rewrite i_open0.
  - apply (thr_upd (fun j lj => user lj = true -> j ∈ users (hist s))); [rewrite Hu; eauto|]. eauto.
Qed.
Lemma hist_move s s' ls i l l' e : Inv s ls -> ls !! i = Some l -> hist s' = e :: hist s -> (match e with Called j _ | Opens j => j = i | _ => True end) ->
  nums s' (<[i := l']> ls) ->
  waiters s' = waiters s -> i ∉ waiters s ->
  stat s' l' -> (forall j lj, ls !! j = Some lj -> j <> i -> stat s lj -> stat s' lj) ->
  (sm s = Opened -> sm s' = Opened \/ serves e = true) ->
  (owing s ls -> owing s' (<[i := l']> ls) \/ serves e = true) -> know i (e :: hist s) (sm s' = Opened) (owing s' (<[i := l']> ls)) l' ->
  (due true (e :: hist s) = true -> (due true (hist s) = true /\ serves e = false) \/ owing s' (<[i := l']> ls)) ->
  (forall j, j ∈ active (e :: hist s) -> <[i := l']> ls !! j = Some K6) ->
  (is_open (e :: hist s) = true <-> sm s' = Opened) ->
  (forall j, j <> i -> j ∈ users (hist s) -> j ∈ users (e :: hist s)) -> (user l' = true -> i ∈ users (e :: hist s)) ->
  event_ok e (hist s) ->
  Inv s' (<[i := l']> ls).
Proof.
  intros [] Hi Hh He Hn Hw Hni Hs Hso Hop How Hk Hd Ha Hsm Hu Hu' Hev. split; rewrite ?Hh; auto.
  - rewrite Hw. destruct i_wait0 as [->|(j&E&Hj)]; [by left|]. right. exists j. split; [done|]. rewrite list_lookup_insert_ne; [done|]. intros <-. apply Hni. rewrite E. by left.
  - apply thr_upd; [done|]. intros j lj Hj Hne. eauto.
  - apply thr_upd; [done|]. intros j lj Hj Hne. eapply know_mono; [..|by apply i_know0]; [destruct e; cbn; try done; congruence|destruct e; try done; congruence|done|done].
  - intros Hx. destruct (Hd Hx) as [[Hy Hz]|?]; [|done]. destruct (How (i_due0 Hy)); congruence.
  - apply (thr_upd (fun j lj => user lj = true -> j ∈ users (e :: hist s))); eauto.
  - by split.
Qed.
Lemma holder s ls i j l lj : Inv s ls -> ls !! i = Some l -> ls !! j = Some lj -> j <> i -> hold l = true -> hold lj = false.
Proof.
  intros HI Hi Hj Hne Hl. destruct (hold lj) eqn:E; [|done]. pose proof (cnt_two hold ls i j l lj (not_eq_sym Hne) Hi Hj Hl E) as H. destruct (i_num _ _ HI) as (_&_&_&Hh&_). rewrite Hh in H. destruct (sm s); lia.
Qed.
Lemma sole s ls i j l lj : Inv s ls -> ls !! i = Some l -> ls !! j = Some lj -> j <> i -> isK l = true -> isK lj = false.
Proof.
  intros HI Hi Hj Hne Hl. destruct (isK lj) eqn:E; [|done]. pose proof (cnt_two isK ls i j l lj (not_eq_sym Hne) Hi Hj Hl E) as H. destruct (i_num _ _ HI) as (_&Hh&_&_&_&Hx&_). lia.
Qed.
Lemma holder_sm s ls i l : Inv s ls -> ls !! i = Some l -> hold l = true -> sm s = Opening \/ sm s = Closing.
Proof. intros HI Hi Hl. pose proof (cnt_pos hold ls i l Hi Hl) as H. destruct (i_num _ _ HI) as (_&_&_&Hh&_). rewrite Hh in H. destruct (sm s); auto; lia. Qed.
Ltac counts Hi l l' ls :=
  pose proof (cnt_upd isK ls _ l l' Hi); pose proof (cnt_upd inexec ls _ l l' Hi); pose proof (cnt_upd hold ls _ l l' Hi); pose proof (cnt_upd wakes ls _ l l' Hi);
  pose proof (cnt_upd before ls _ l l' Hi);
  cbn [isK inexec hold wakes before Nat.b2n] in *.
Ltac fields := cbn [state waiters sm execs spawn alive hist set_state set_waiters set_sm set_spawn set_hist] in *.
(** The numbers after a step of thread i from l to l'. *)
Ltac numeric HI Hi l l' ls :=
  let H := fresh in pose proof (i_num _ _ HI) as H; counts Hi l l' ls; unfold num_ok in *; fields; destruct H as (?&?&?&?&?&?&?);
  split_and!; try done; try lia; try congruence.
Ltac ow := unfold owing; fields; first [lia|intros [? ?]; split; [congruence|lia]].

Section acts.
Context (i : nat) (s : wth) (ls : list pc).
Context (HI : Inv s ls).
Lemma not_waiting l : ls !! i = Some l -> l <> K3 -> i ∉ waiters s.
Proof. intros Hi Hl. destruct (i_wait _ _ HI) as [->|(j&->&Hj)]; [apply not_elem_of_nil|]. intros ->%elem_of_list_singleton. congruence. Qed.
Lemma no_waiter : alive s = 0%nat -> waiters s = [].
Proof.
  intros He. destruct (i_wait _ _ HI) as [->|(j&->&Hj)]; [done|]. pose proof (cnt_pos isK ls j _ Hj eq_refl). destruct (i_num _ _ HI) as (_&Hx&_). lia.
Qed.
Lemma stat_nohold s' lj : hold lj = false -> (state s = 2 -> state s' = 2 \/ lj <> KRet) -> stat s lj -> stat s' lj.
Proof. destruct lj; cbn; intros; auto; try done. naive_solver. Qed.
Lemma no_holder j lj : ls !! j = Some lj -> sm s = Opened \/ sm s = Closed -> hold lj = false.
Proof. intros Hj Hs. destruct (hold lj) eqn:E; [|done]. destruct (holder_sm _ _ _ _ HI Hj E), Hs; congruence. Qed.
Lemma in_exec l : ls !! i = Some l -> inexec l = true -> (0 < execs s)%nat /\ state s <> 2 /\ sm s <> Closed.
Proof.
  intros Hi Hl. pose proof (cnt_pos inexec ls i l Hi Hl) as Hp. destruct (i_num _ _ HI) as (_&_&He&Hh&Hsm&_). split; [lia|]. destruct (sm s) eqn:E; [lia| |naive_solver|].
  all: destruct (cnt_ex hold ls) as (j&lj&Hj&Hlj); [lia|]; pose proof (i_stat _ _ HI _ _ Hj) as Hst; destruct lj; try done; cbn in Hst; destruct_and?; first [lia|congruence|split_and!; congruence].
Qed.
Lemma at_k l : ls !! i = Some l -> isK l = true -> (0 < alive s)%nat.
Proof. intros Hi Hl. pose proof (cnt_pos isK ls i l Hi Hl) as Hp. destruct (i_num _ _ HI) as (_&Hb&_). lia. Qed.

Ltac wt := right; left; split; [done|by eapply not_waiting].
Ltac getk Hi := pose proof (i_know _ _ HI _ _ Hi) as Hk; pose proof (i_stat _ _ HI _ _ Hi) as Hs; cbn in Hk, Hs.
Ltac st_h Hi := let j := fresh in let lj := fresh in let Hj := fresh in let Hne := fresh in intros j lj Hj Hne; apply stat_nohold; [exact (holder _ _ _ _ _ _ HI Hi Hj Hne eq_refl)|auto].
Ltac st_s := let j := fresh in let lj := fresh in let Hj := fresh in let Hne := fresh in let Hst := fresh in intros j lj Hj Hne Hst; try exact Hst; destruct lj; cbn [stat] in *; fields; try exact Hst; try done; destruct_and?; split_and?; first [done|lia].
Ltac qui l l' Hi := apply (quiet s _ ls i l l'); auto; fields; try done; try wt; try (numeric HI Hi l l' ls; fail); try (counts Hi l l' ls; ow).
Lemma a_open_begin : ls !! i = Some O0 -> match sm_open_begin s with Done (x, s') => Inv s' (<[i := if x then O1 else ORef]> ls) | _ => False end.
Proof.
  intros Hi. getk Hi. unfold sm_open_begin. destruct (sm s) eqn:E.
  1: { qui O0 O1 Hi.
    - numeric HI Hi O0 O1 ls. rewrite E in *. lia.
    - pose proof (i_num _ _ HI) as (?&?&?&?&Hx&?). rewrite E in Hx. cbn. naive_solver.
    - intros j lj Hj Hne. apply stat_nohold; [|auto]. eapply no_holder; eauto. }
  all: qui O0 ORef Hi; cbn [know]; (split; [done|]); apply during_now; unfold conflict; apply orb_true_iff.
  2: { left. by apply (i_open _ _ HI). }
  all: right; apply bool_decide_true; pose proof (i_num _ _ HI) as (_&_&_&Hh&_); rewrite E in Hh; destruct (cnt_ex hold ls) as (j&lj&Hj&Hlj); [lia|]; pose proof (i_user _ _ HI j lj Hj) as Hu;
    intros Hf; assert (j ∈ filter (.≠ i) (users (hist s))) as Hin; [|rewrite Hf in Hin; by apply elem_of_nil in Hin]; apply elem_of_list_filter; split; [intros ->; rewrite Hi in Hj; by simplify_eq|apply Hu; by destruct lj].
Qed.
Lemma a_reset l' : ls !! i = Some O1 -> l' = O2 \/ l' = O3 -> match exchange 0 s with Done (_, s') => Inv s' (<[i := l']> ls) | _ => False end.
Proof.
  intros Hi Hl'. getk Hi. destruct Hs as (Hs1&Hs2&Hs3&Hs4). unfold exchange. pose proof (no_waiter Hs4) as Hw.
  destruct Hl' as [ -> | -> ]; [qui O1 O2 Hi|qui O1 O3 Hi].
  1: numeric HI Hi O1 O2 ls; by rewrite Hs1.
  3: numeric HI Hi O1 O3 ls; by rewrite Hs1.
  2, 4: intros [? ?]; congruence.
  all: intros j lj Hj Hne; apply stat_nohold; [exact (holder _ _ _ _ _ _ HI Hi Hj Hne eq_refl)|]; intros _; right; intros ->; pose proof (cnt_pos isK ls j _ Hj eq_refl); destruct (i_num _ _ HI) as (_&Hx&_); lia.
Qed.
Lemma a_open_fail : ls !! i = Some O2 -> match sm_open_end i false s with Done (_, s') => Inv s' (<[i := OBad]> ls) | _ => False end.
Proof.
  intros Hi. getk Hi. destruct Hs as (Hs1&Hs2&Hs3&Hs4&Hs5). unfold sm_open_end. rewrite Hs1. qui O2 OBad Hi.
  - numeric HI Hi O2 OBad ls. rewrite Hs1 in *. lia.
  - st_h Hi.
Qed.
Lemma a_create : ls !! i = Some O3 -> match thread_create s with Done (_, s') => Inv s' (<[i := O4]> ls) | _ => False end.
Proof.
  intros Hi. getk Hi. destruct Hs as (Hs1&Hs2&Hs3&Hs4&Hs5). unfold thread_create. qui O3 O4 Hi.
  - numeric HI Hi O3 O4 ls. by rewrite Hs1.
  - cbn. split_and!; try done; lia.
  - st_h Hi.
Qed.
Lemma a_open_end : ls !! i = Some O4 -> match sm_open_end i true s with Done (_, s') => Inv s' (<[i := ORet]> ls) | _ => False end.
Proof.
  intros Hi. getk Hi. destruct Hs as (Hs1&Hs2&Hs3&Hs4). unfold sm_open_end. rewrite Hs1. apply (hist_move s _ ls i O4 ORet (Opens i)); auto; fields; try done.
  - numeric HI Hi O4 ORet ls. rewrite Hs1 in *. lia.
  - by eapply not_waiting.
  - st_h Hi.
  - intros [? ?]. congruence.
  - cbn. by rewrite decide_True.
  - cbn. intros j Hj. rewrite list_lookup_insert_ne; [by apply (i_act _ _ HI)|]. intros <-. apply (i_act _ _ HI) in Hj. congruence.
  - cbn. intros _. by eapply (i_user _ _ HI).
  - cbn. destruct (is_open (hist s)) eqn:E; [|done]. apply (i_open _ _ HI) in E. congruence.
Qed.
Lemma a_close_begin : ls !! i = Some X0 -> match sm_close_begin i s with Done (x, s') => Inv s' (<[i := if x then X1 else XRet]> ls) | _ => False end.
Proof.
  intros Hi. getk Hi. unfold sm_close_begin. destruct (sm s) eqn:E.
  1, 2, 4: qui X0 XRet Hi.
  apply (hist_move s _ ls i X0 X1 (Closes i)); auto; fields; try done.
  - numeric HI Hi X0 X1 ls. rewrite E in *. lia.
  - by eapply not_waiting.
  - destruct (i_num _ _ HI) as (_&_&_&_&Hx&_). rewrite E in Hx. cbn. naive_solver.
  - intros j lj Hj Hne. apply stat_nohold; [|auto]. eapply no_holder; eauto.
  - cbn. intros j Hj. rewrite list_lookup_insert_ne; [by apply (i_act _ _ HI)|]. intros <-. apply (i_act _ _ HI) in Hj. congruence.
  - cbn. intros _. by eapply (i_user _ _ HI).
  - cbn. by apply (i_open _ _ HI).
Qed.
Lemma a_drain : ls !! i = Some X1 -> match sm_drain s with Done (_, s') => Inv s' (<[i := X2]> ls) | NoFuel => blk i X1 s | _ => False end.
Proof. intros Hi. getk Hi. unfold sm_drain. case_decide as E; [|cbn; lia]. qui X1 X2 Hi. cbn. naive_solver. Qed.
Lemma a_set_close : ls !! i = Some X2 -> match exchange 2 s with Done (_, s') => Inv s' (<[i := X3]> ls) | _ => False end.
Proof.
  intros Hi. getk Hi. destruct Hs as (Hs1&Hs2). unfold exchange. qui X2 X3 Hi.
  - numeric HI Hi X2 X3 ls. by rewrite Hs1 in *.
  - st_h Hi.
  - intros [? ?]. congruence.
Qed.
Lemma a_wake_close : ls !! i = Some X3 -> match wake_single s with Done (_, s') => Inv s' (<[i := X4]> ls) | _ => False end.
Proof.
  intros Hi. getk Hi. destruct Hs as (Hs1&Hs2&Hs3). unfold wake_single. assert (tail (waiters s) = []) as -> by (destruct (i_wait _ _ HI) as [ -> |(j&->&_)]; done). qui X3 X4 Hi.
Qed.
Lemma a_join : ls !! i = Some X4 -> match thread_join s with Done (_, s') => Inv s' (<[i := X5]> ls) | NoFuel => blk i X4 s | _ => False end.
Proof.
  intros Hi. getk Hi. destruct Hs as (Hs1&Hs2&Hs3). unfold thread_join. case_decide as E; [|cbn; lia]. qui X4 X5 Hi.
Qed.
Lemma a_close_end : ls !! i = Some X5 -> match sm_close_end s with Done (_, s') => Inv s' (<[i := XRet]> ls) | _ => False end.
Proof.
  intros Hi. getk Hi. destruct Hs as (Hs1&Hs2&Hs3&Hs4). unfold sm_close_end. rewrite Hs1. qui X5 XRet Hi.
  - numeric HI Hi X5 XRet ls. rewrite Hs1 in *. lia.
  - st_h Hi.
Qed.
Lemma a_exec_begin : ls !! i = Some S0 -> match sm_exec_begin s with Done (x, s') => Inv s' (<[i := if x then S1 else SRef]> ls) | _ => False end.
Proof.
  intros Hi. getk Hi. unfold sm_exec_begin. assert (sm s <> Opened -> know i (hist s) True True SRef) as Href.
  { intros Hne. cbn. apply during_now. destruct (is_open (hist s)) eqn:Eo; [|done]. by apply (i_open _ _ HI) in Eo. }
  destruct (sm s) eqn:E; [qui S0 SRef Hi; apply Href; congruence|qui S0 SRef Hi; apply Href; congruence| |qui S0 SRef Hi; apply Href; congruence]. qui S0 S1 Hi.
  - numeric HI Hi S0 S1 ls; rewrite E in *; solve [done|lia|tauto].
  - intros j lj Hj Hne. apply stat_nohold; [|auto]. eapply no_holder; eauto.
  - cbn. split; [|auto]. apply during_now. by apply (i_open _ _ HI).
Qed.
Lemma a_try : ls !! i = Some S1 -> match cas 1 0 s with Done (x, s') => (x = 0 \/ x = 1) /\ Inv s' (<[i := S2]> ls) | _ => False end.
Proof.
  intros Hi. getk Hi. unfold cas. destruct (in_exec _ Hi eq_refl) as (He&Hp&Ht). assert (state s = 0 \/ state s = 1) as Hst by (pose proof (i_num _ _ HI) as (?&_); lia). split; [done|]. destruct Hst as [E|E]; rewrite E; cbn [Z.eqb].
  - qui S1 S2 Hi.
    + numeric HI Hi S1 S2 ls. destruct (sm s); naive_solver lia.
    + st_s.
    + cbn. destruct Hk as [? [?|?]]; split; auto. right. split; auto.
  - qui S1 S2 Hi. cbn. destruct Hk as [? [?|?]]; split; auto. right. split; auto.
Qed.
Lemma a_wake : ls !! i = Some S2 -> match wake_single s with Done (_, s') => Inv s' (<[i := S3]> ls) | _ => False end.
Proof.
  intros Hi. getk Hi. unfold wake_single. assert (tail (waiters s) = []) as -> by (destruct (i_wait _ _ HI) as [ -> |(j&->&_)]; done). qui S2 S3 Hi.
  cbn. destruct Hk as [? [?|Ho]]; split; auto. right. counts Hi S2 S3 ls. revert Ho. ow.
Qed.
Lemma a_exec_end : ls !! i = Some S3 -> match sm_exec_end s with Done (_, s') => Inv s' (<[i := SRet]> ls) | _ => False end.
Proof.
  intros Hi. getk Hi. unfold sm_exec_end. destruct (in_exec _ Hi eq_refl) as (He&Hp&Ht). destruct (execs s) as [|n] eqn:E; [lia|]. qui S3 SRet Hi.
  - numeric HI Hi S3 SRet ls. by destruct (sm s).
  - st_s.
  - cbn in *. destruct Hk as [? [?|Ho]]; split; auto. right. counts Hi S3 SRet ls. revert Ho. ow.
Qed.
Lemma a_load : ls !! i = Some K0 -> match load s with Done (x, s') => (x = 0 \/ x = 1 \/ x = 2) /\ Inv s' (<[i := if x =? 0 then K1 else if x =? 1 then K4 else KRet]> ls) | _ => False end.
Proof.
  intros Hi. getk Hi. unfold load. assert (state s = 0 \/ state s = 1 \/ state s = 2) as Hst by (pose proof (i_num _ _ HI) as (?&_); lia). split; [done|].
  destruct Hst as [E|[E|E]]; rewrite E; cbn [Z.eqb Pos.eqb]; [qui K0 K1 Hi|qui K0 K4 Hi|qui K0 KRet Hi].
Qed.
Lemma a_take : ls !! i = Some K4 -> match cas 0 1 s with Done (x, s') => Inv s' (<[i := K5]> ls) | _ => False end.
Proof.
  intros Hi. getk Hi. unfold cas. pose proof (at_k _ Hi eq_refl). destruct (Z.eqb_spec (state s) 1) as [E|E]; [|qui K4 K5 Hi]. qui K4 K5 Hi.
  - numeric HI Hi K4 K5 ls. destruct (sm s); naive_solver lia.
  - st_s.
  - intros [? _]. split; [done|]. right. eapply cnt_pos; [by eapply upd_at|done].
Qed.
Lemma no_active l : ls !! i = Some l -> isK l = true -> l <> K6 -> active (hist s) = [].
Proof.
  intros Hi Hl Hk. destruct (active (hist s)) as [|j a] eqn:E; [done|]. assert (ls !! j = Some K6) as Hj by (apply (i_act _ _ HI); rewrite E; by left).
  assert (j <> i) as Hne by congruence. by pose proof (sole _ _ _ _ _ _ HI Hi Hj Hne Hl).
Qed.
Lemma a_begin : ls !! i = Some K5 -> match begin_func i s with Done (_, s') => Inv s' (<[i := K6]> ls) | _ => False end.
Proof.
  intros Hi. getk Hi. unfold begin_func. apply (hist_move s _ ls i K5 K6 (Begins i)); auto; fields; try done.
  - numeric HI Hi K5 K6 ls.
  - by eapply not_waiting.
  - cbn. rewrite (no_active _ Hi eq_refl) by done. intros j [ -> |Hj]%elem_of_cons; [by eapply upd_at|by apply elem_of_nil in Hj].
  - cbn. apply (i_open _ _ HI).
  - cbn. by eapply no_active.
Qed.
Lemma a_end : ls !! i = Some K6 -> match end_func i s with Done (_, s') => Inv s' (<[i := K0]> ls) | _ => False end.
Proof.
  intros Hi. getk Hi. unfold end_func. apply (hist_move s _ ls i K6 K0 (Ends i)); auto; fields; try done.
  - numeric HI Hi K6 K0 ls.
  - by eapply not_waiting.
  - intros How. left. counts Hi K6 K0 ls. revert How. ow.
  - cbn. intros j [Hne Hj]%elem_of_list_filter. rewrite list_lookup_insert_ne by done. by apply (i_act _ _ HI).
  - cbn. apply (i_open _ _ HI).
Qed.
Lemma a_check : ls !! i = Some K1 -> match load s with Done (x, s') => Inv s' (<[i := if x =? 0 then K2 else K0]> ls) | _ => False end.
Proof. intros Hi. getk Hi. unfold load. destruct (state s =? 0); [qui K1 K2 Hi|qui K1 K0 Hi]. Qed.
Lemma a_wait_start : ls !! i = Some K2 -> match wait_start i 0 s with Done (_, s') => Inv s' (<[i := K3]> ls) | _ => False end.
Proof.
  intros Hi. getk Hi. unfold wait_start. destruct (Z.eqb_spec (state s) 0) as [E|E]; [|qui K2 K3 Hi]. qui K2 K3 Hi.
  right. right. split; [|done]. destruct (i_wait _ _ HI) as [ -> |(j&_&Hj)]; [done|]. assert (j <> i) as Hne by congruence. by pose proof (sole _ _ _ _ _ _ HI Hi Hj Hne eq_refl).
Qed.
Lemma a_wait_end : ls !! i = Some K3 -> match wait_end i s with Done (_, s') => Inv s' (<[i := K1]> ls) | NoFuel => blk i K3 s | _ => False end.
Proof. intros Hi. getk Hi. unfold wait_end. case_decide as E; [done|]. qui K3 K1 Hi. Qed.
End acts.

Definition post (i : nat) (o : op) : res -> pc -> Prop := fun r l => forall s ls, ls !! i = Some l -> Inv s ls -> exists l', l' = Out /\ Inv (returns worker i o r s) (<[i := l']> ls).
Definition answers (o : op) (r : res) (l : pc) : Prop :=
  match o with
  | Open d m => (l = ORet /\ d && m = true /\ r = Int 0) \/ (l = ORef /\ d = true /\ r = Int 1) \/ (l = OBad /\ d && m = false /\ r = Int 1)
  | Close d => l = XRet /\ r = Void
  | Schedule d => (l = SRet /\ d = true /\ r = OK) \/ (l = SRef /\ d = true /\ r = INVALID_STATE) \/ (l = Bad /\ d = false /\ r = ERROR)
  | Worker => l = KRet /\ r = Void
  end.
Lemma ret_ok i o r l : answers o r l -> post i o r l.
Proof.
  intros Ha s ls Hi HI. exists Out. split; [done|]. cbn [returns worker]. pose proof (i_know _ _ HI _ _ Hi) as Hk.
  assert (forall j, j ∈ active (hist s) -> l <> K6 -> <[i := Out]> ls !! j = Some K6) as Hact.
  { intros j Hj Hl. rewrite list_lookup_insert_ne; [by apply (i_act _ _ HI)|]. intros <-. apply (i_act _ _ HI) in Hj. congruence. }
  assert (i ∉ waiters s) as Hw. { eapply not_waiting; [exact HI|exact Hi|]. intros ->. destruct o; cbn in Ha; destruct_or?; by destruct Ha. }
  destruct o as [d m|d|d|]; cbn [answers] in Ha.
  - apply (hist_move s _ ls i l Out (Returned i (Open d m) r)); auto; fields; try done.
    + destruct Ha as [(->&_)|[(->&_)|(->&_)]]; [numeric HI Hi ORet Out ls|numeric HI Hi ORef Out ls|numeric HI Hi OBad Out ls].
    + intros How. left. destruct Ha as [(->&_)|[(->&_)|(->&_)]]; [counts Hi ORet Out ls|counts Hi ORef Out ls|counts Hi OBad Out ls]; revert How; ow.
    + cbn. intros j Hj. apply Hact; [done|]. destruct Ha as [(->&_)|[(->&_)|(->&_)]]; done.
    + cbn. apply (i_open _ _ HI).
    + cbn. intros j Hne Hj. by apply elem_of_list_filter.
    + cbn [event_ok]. destruct Ha as [(->&->&->)|[(->&->&->)|(->&->&->)]]; cbn [know] in Hk; auto. cbn [andb]. destruct Hk as [Hk1 Hk2]. destruct m; auto.
  - destruct Ha as [-> ->]. apply (hist_move s _ ls i XRet Out (Returned i (Close d) Void)); auto; fields; try done.
    + numeric HI Hi XRet Out ls.
    + intros How. left. counts Hi XRet Out ls. revert How; ow.
    + cbn. apply (i_open _ _ HI).
    + cbn. intros j Hne Hj. by apply elem_of_list_filter.
  - assert (owing s ls -> owing (set_hist (Returned i (Schedule d) r :: hist s) s) (<[i := Out]> ls)) as How.
    { intros How. destruct Ha as [(->&_)|[(->&_)|(->&_)]]; [counts Hi SRet Out ls|counts Hi SRef Out ls|counts Hi Bad Out ls]; revert How; ow. }
    apply (hist_move s _ ls i l Out (Returned i (Schedule d) r)); auto; fields; try done.
    + destruct Ha as [(->&_)|[(->&_)|(->&_)]]; [numeric HI Hi SRet Out ls|numeric HI Hi SRef Out ls|numeric HI Hi Bad Out ls].
    + destruct Ha as [(->&_&->)|[(->&_&->)|(->&_&->)]]; cbn [due]; auto. cbn [know] in Hk. destruct Hk as [_ [Hb|Hk]]; [|auto]. rewrite Hb. auto.
    + cbn. intros j Hj. apply Hact; [done|]. destruct Ha as [(->&_)|[(->&_)|(->&_)]]; done.
    + cbn. apply (i_open _ _ HI).
    + cbn [event_ok]. destruct Ha as [(->&->&->)|[(->&->&->)|(->&->&->)]]; cbn [know] in Hk; auto. left. by destruct Hk.
  - destruct Ha as [-> ->]. pose proof (i_stat _ _ HI _ _ Hi) as Hs. cbn in Hs. pose proof (at_k _ _ _ HI _ Hi eq_refl) as Hal.
    apply (hist_move s _ ls i KRet Out (Returned i Worker Void)); auto; fields; try done.
    + pose proof (i_num _ _ HI) as Hn. counts Hi KRet Out ls. unfold num_ok in *. fields. destruct Hn as (?&?&?&?&?&?&?). split_and!; try done; try lia. destruct (sm s); naive_solver lia.
    + intros j lj Hj Hne Hst. destruct lj; cbn [stat] in *; fields; try done; destruct_and?; split_and?; first [done|lia].
    + intros How. left. counts Hi KRet Out ls. revert How; ow.
    + cbn. apply (i_open _ _ HI).
Qed.
Ltac act_step lem := apply wpa_act; [shp|]; intros s0 ls0 Hi0 HI0; pose proof (lem _ _ _ HI0 Hi0) as Hact.
Ltac fin := apply wpa_ret; [shp|apply ret_ok; cbn; auto 10].
Lemma open_ok i m : runs i (Open true m) (worker_thread_open i true m) O0.
Proof.
  unfold worker_thread_open. cbn [negb]. act_step a_open_begin. destruct (sm_open_begin s0) as [[[] s1]| |]; [|..|done|done]; cbn [negb].
  2: { exists ORef. split; [done|]. fin. }
  exists O1. split; [done|]. clear. apply wpa_act; [shp|]. intros s0 ls0 Hi0 HI0. destruct m; cbn [negb].
  - pose proof (a_reset _ _ _ HI0 O3 Hi0 (or_intror eq_refl)) as Hact. destruct (exchange 0 s0) as [[[] s1]| |]; [|done..]. exists O3. split; [done|]. clear.
    act_step a_create. destruct (thread_create s0) as [[[] s1]| |]; [|done..]. exists O4. split; [done|]. clear.
    act_step a_open_end. destruct (sm_open_end i true s0) as [[[] s1]| |]; [|done..]. exists ORet. split; [done|]. clear. fin.
  - pose proof (a_reset _ _ _ HI0 O2 Hi0 (or_introl eq_refl)) as Hact. destruct (exchange 0 s0) as [[[] s1]| |]; [|done..]. exists O2. split; [done|]. clear.
    act_step a_open_fail. destruct (sm_open_end i false s0) as [[[] s1]| |]; [|done..]. exists OBad. split; [done|]. clear. fin.
Qed.
Lemma close_ok i : runs i (Close true) (worker_thread_close i true) X0.
Proof.
  unfold worker_thread_close, internal_close. cbn [negb]. act_step a_close_begin. destruct (sm_close_begin i s0) as [[[] s1]| |]; [|..|done|done].
  2: { exists XRet. split; [done|]. fin. }
  exists X1. split; [done|]. clear. act_step a_drain. destruct (sm_drain s0) as [[[] s1]| |]; [|done..]. exists X2. split; [done|]. clear.
  act_step a_set_close. destruct (exchange 2 s0) as [[[] s1]| |]; [|done..]. exists X3. split; [done|]. clear.
  act_step a_wake_close. destruct (wake_single s0) as [[[] s1]| |]; [|done..]. exists X4. split; [done|]. clear.
  act_step a_join. destruct (thread_join s0) as [[[] s1]| |]; [|done..]. exists X5. split; [done|]. clear.
  act_step a_close_end. destruct (sm_close_end s0) as [[[] s1]| |]; [|done..]. exists XRet. split; [done|]. clear. fin.
Qed.
Lemma worker_ok i : runs i Worker (worker_thread_func i false) K0.
Proof.
  eapply wp_loop with (A := fun p l => exists b : bool, p = worker_thread_func i b /\ l = if b then K1 else K0); [|apply wpa_again; by exists false]. intros p l ([]&->&->).
  - rewrite (frob_eq (worker_thread_func i true)). cbn [frob worker_thread_func]. split; [shp|]. intros s0 ls0 Hi0 HI0. pose proof (a_check _ _ _ HI0 Hi0) as Hact. destruct (load s0) as [[x s1]| |]; [|done..]. destruct (x =? 0).
    + exists K2. split; [done|]. clear. act_step a_wait_start. destruct (wait_start i 0 s0) as [[[] s1]| |]; [|done..]. exists K3. split; [done|]. clear.
      act_step a_wait_end. destruct (wait_end i s0) as [[[] s1]| |]; [|done..]. exists K1. split; [done|]. apply wpa_again. by exists true.
    + exists K0. split; [done|]. apply wpa_again. by exists false.
  - rewrite (frob_eq (worker_thread_func i false)). cbn [frob worker_thread_func]. split; [shp|]. intros s0 ls0 Hi0 HI0. pose proof (a_load _ _ _ HI0 Hi0) as Hact. destruct (load s0) as [[x s1]| |]; [|done..].
    destruct Hact as [Hx Hact]. destruct Hx as [->|[->| ->]]; cbn [Z.eqb Pos.eqb] in *.
    + exists K1. split; [done|]. apply wpa_again. by exists true.
    + exists K4. split; [done|]. clear. act_step a_take. destruct (cas 0 1 s0) as [[x s1]| |]; [|done..]. exists K5. split; [done|]. clear.
      act_step a_begin. destruct (begin_func i s0) as [[[] s1]| |]; [|done..]. exists K6. split; [done|]. clear.
      act_step a_end. destruct (end_func i s0) as [[[] s1]| |]; [|done..]. exists K0. split; [done|]. apply wpa_again. by exists false.
    + exists KRet. split; [done|]. clear. fin.
Qed.
Lemma schedule_ok i : runs i (Schedule true) (worker_thread_schedule_process i true) S0.
Proof.
  unfold worker_thread_schedule_process. cbn [negb]. act_step a_exec_begin. destruct (sm_exec_begin s0) as [[[] s1]| |]; [|..|done|done]; cbn [negb].
  2: { exists SRef. split; [done|]. fin. }
  exists S1. split; [done|]. clear. act_step a_try. destruct (cas 1 0 s0) as [[x s1]| |]; [|done..]. destruct Hact as [Hx Hact].
  assert (negb (x =? 0) && negb (x =? 1) = false) as -> by (by destruct Hx as [-> | ->]). exists S2. split; [done|]. clear.
  act_step a_wake. destruct (wake_single s0) as [[[] s1]| |]; [|done..]. exists S3. split; [done|]. clear.
  act_step a_exec_end. destruct (sm_exec_end s0) as [[[] s1]| |]; [|done..]. exists SRet. split; [done|]. clear. fin.
Qed.
Lemma call_move s ls i o l' : Inv s ls -> ls !! i = Some Out -> (match o with Worker => False | _ => True end) -> know i (Called i o :: hist s) False False l' -> stat s l' -> isK l' = false -> inexec l' = false -> hold l' = false -> wakes l' = false -> before l' = false ->
  (user l' = true -> i ∈ users (Called i o :: hist s)) -> Inv (set_hist (Called i o :: hist s) s) (<[i := l']> ls).
Proof.
  intros HI Hi Ho Hk Hs H1 H2 H3 H4 H5 Hu. apply (hist_move s _ ls i Out l' (Called i o)); auto; fields; try done.
  - pose proof (i_num _ _ HI) as Hn. rewrite !(cnt_same _ ls i Out l' Hi) by (by rewrite ?H1, ?H2, ?H3, ?H4, ?H5). done.
  - by eapply not_waiting.
  - intros How. left. unfold owing. rewrite (cnt_same before ls i Out l' Hi) by done. exact How.
  - eapply know_ow; [| |exact Hk]; done.
  - intros j Hj. rewrite list_lookup_insert_ne; [by apply (i_act _ _ HI)|]. intros <-. apply (i_act _ _ HI) in Hj. congruence.
  - destruct o; cbn; apply (i_open _ _ HI).
  - intros j Hne Hj. destruct o; cbn; auto; by right.
Qed.
Lemma call_ok i o s s' ls l : ls !! i = Some l -> l = Out -> Inv s ls -> calls worker i o s = Some s' -> exists l', Inv s' (<[i := l']> ls) /\ runs i o (code worker i o) l'.
Proof.
  intros Hi -> HI Hc. destruct o as [d m|d|d|]; cbn [calls worker code] in *; simplify_eq.
  - destruct d.
    + exists O0. split; [|apply open_ok]. apply call_move; try done. { cbn. by rewrite decide_True. } intros _. cbn. by left.
    + exists OBad. split; [|fin]. apply call_move; try done. { cbn. by rewrite decide_True. } intros _. cbn. by left.
  - destruct d.
    + exists X0. split; [|apply close_ok]. apply call_move; try done. intros _. cbn. by left.
    + exists XRet. split; [|fin]. apply call_move; try done. intros _. cbn. by left.
  - destruct d.
    + exists S0. split; [|apply schedule_ok]. by apply call_move.
    + exists Bad. split; [|fin]. by apply call_move.
  - destruct (spawn s) as [|n] eqn:En; [done|]. simplify_eq. exists K0. split; [|apply worker_ok].
    apply (hist_move s _ ls i Out K0 (Called i Worker)); auto; fields; try done.
    + pose proof (i_num _ _ HI) as Hn. counts Hi Out K0 ls. unfold num_ok in *. fields. destruct Hn as (?&?&?&?&?&?&?). split_and!; try done; try lia. destruct (sm s); naive_solver lia.
    + by eapply not_waiting.
    + intros j lj Hj Hne Hst. destruct lj; cbn [stat] in *; fields; try done; destruct_and?; split_and?; first [done|lia].
    + intros How. left. counts Hi Out K0 ls. revert How. ow.
    + cbn. intros j Hj. rewrite list_lookup_insert_ne; [by apply (i_act _ _ HI)|]. intros <-. apply (i_act _ _ HI) in Hj. congruence.
    + cbn. apply (i_open _ _ HI).
Qed.
Lemma env_ok s s' ls : Inv s ls -> env worker s s' -> Inv s' ls.
Proof.
  intros [] (w&Hw&->). assert (w = [] \/ w = waiters s) as Hw'.
  { destruct i_wait0 as [E|(j&E&_)]; rewrite E in *; [left; by apply sublist_nil_r in Hw|]. apply sublist_cons_r in Hw as [Hw|(k&->&Hw)]; apply sublist_nil_r in Hw; subst; auto. }
  split; auto; fields; auto.
  - destruct i_num0 as (?&?&?&?&?&?&Hx). split_and!; try done. fields. destruct Hw' as [-> | ->]; done.
  - destruct Hw' as [-> | ->]; auto.
Qed.
Lemma init_ok f m1 m2 s0 n : worker_thread_create f m1 m2 = Some s0 -> Inv s0 (replicate n Out).
Proof.
  unfold worker_thread_create. repeat case_match; try done. intros [= <-]. split; fields; try done.
  - rewrite !cnt_replicate by done. unfold num_ok. fields. split_and!; auto.
  - by left.
  - intros j l [-> _]%lookup_replicate. done.
  - intros j l [-> _]%lookup_replicate. done.
  - intros j Hj. by apply elem_of_nil in Hj.
  - intros j l [-> _]%lookup_replicate. done.
Qed.
Section reached.
Context (f m1 m2 : bool) (s0 : wth) (n : nat) (c : wth * list (thread wth op res)).
Context (Hcr : worker_thread_create f m1 m2 = Some s0) (Hr : reachable worker s0 n c).
Lemma reach : conf_ok worker Inv (.= Out) blk shape c.
Proof. eapply (reach_ok worker Inv (.= Out) blk shape) with (l0 := Out); [exact call_ok|exact env_ok|done| |exact Hr]. by eapply init_ok. Qed.
Lemma history later ev before : hist c.1 = later ++ ev :: before -> event_ok ev before.
Proof. intros Hh. destruct reach as (ls&_&HI&_). eapply all_ok_at. rewrite <-Hh. apply HI. Qed.
Lemma no_crash i : ~ crashed c i.
Proof. eapply ok_no_crash, reach. Qed.
Lemma runner ls j l : length ls = length c.2 -> (forall i t l, c.2 !! i = Some t -> ls !! i = Some l -> thr_ok worker Inv (.= Out) blk shape i t l) -> Inv c.1 ls -> ls !! j = Some l -> l <> Out -> ~ blk j l c.1 ->
  exists o p, c.2 !! j = Some (Running o p) /\ ~ blocked c j /\ shape o p l.
Proof.
  intros Hlen Hts HI Hj Hl Hb. assert (exists t, c.2 !! j = Some t) as [t Ht] by (apply lookup_lt_is_Some_2; rewrite <-Hlen; by eapply lookup_lt_Some). pose proof (Hts _ _ _ Ht Hj) as Hok.
  destruct t as [|o p]; [done|]. exists o, p. split_and!; [done| |by eapply ok_shape].
  intros Hbl. destruct (ok_blocked _ _ _ _ _ _ _ _ Hlen HI Hts Hbl) as (l'&Hl'&Hx). rewrite Hj in Hl'. by injection Hl' as <-.
Qed.
(** Someone is about to let the worker thread go on, if it waits although there is something to do. *)
Lemma worker_goes ls : length ls = length c.2 -> (forall i t l, c.2 !! i = Some t -> ls !! i = Some l -> thr_ok worker Inv (.= Out) blk shape i t l) -> Inv c.1 ls -> state c.1 <> 0 -> (0 < alive c.1)%nat ->
  exists j l o p, ls !! j = Some l /\ c.2 !! j = Some (Running o p) /\ ~ blocked c j /\ (isK l = true \/ wakes l = true) /\ shape o p l.
Proof.
  intros Hlen Hts HI Hst Hal. destruct (i_num _ _ HI) as (_&Ha&_&_&_&_&Hw). destruct (decide (waiters c.1 = [])) as [E|E].
  - destruct (cnt_ex isK ls) as (j&l&Hj&Hl); [lia|]. destruct (runner ls j l) as (o&p&H1&H2&H3); auto; [by destruct l| |by eauto 10]. destruct l; try done; cbn; try tauto. rewrite E. apply not_elem_of_nil.
  - destruct (Hw E) as [|Hx]; [done|]. destruct (cnt_ex wakes ls Hx) as (j&l&Hj&Hl). destruct (runner ls j l) as (o&p&H1&H2&H3); auto; [by destruct l|destruct l; cbn; solve [done|tauto]|]. eauto 10.
Qed.
Lemma progress : due true (hist c.1) = true -> (0 < spawn c.1)%nat \/ exists j o p, c.2 !! j = Some (Running o p) /\ ~ blocked c j /\ (o = Worker \/ o = Schedule true).
Proof.
  intros Hd. destruct reach as (ls&Hlen&HI&Hts). destruct (i_due _ _ HI Hd) as [Ho Hp]. pose proof (i_num _ _ HI) as (_&_&_&Hh&Hx&_). rewrite Ho in Hx, Hh. destruct Hx as [Hx1 Hx2].
  destruct (decide (spawn c.1 = 0%nat)) as [E|]; [right|lia]. destruct Hp as [Hp|Hp].
  - destruct (worker_goes ls) as (j&l&o&p&Hj&H1&H2&H3&H4&H5&_); auto; [lia..|]. exists j, o, p. split_and!; auto. destruct H3 as [H3|H3]; [left; by apply H4|right]. apply H5. destruct l; try done.
    pose proof (cnt_pos hold ls j _ Hj eq_refl). lia.
  - destruct (cnt_ex WthProofs.before ls Hp) as (j&l&Hj&Hl). destruct (runner ls j l) as (o&p&H1&H2&H3&_); auto; [by destruct l|destruct l; cbn; solve [done|tauto]|]. exists j, o, p. split_and!; auto. left. apply H3. by destruct l.
Qed.
Lemma no_deadlock i o p : c.2 !! i = Some (Running o p) -> o <> Worker -> blocked c i -> (0 < spawn c.1)%nat \/ exists j o p, c.2 !! j = Some (Running o p) /\ ~ blocked c j.
Proof.
  intros Hi Hne Hb. pose proof reach as (ls&Hlen&HI&Hts). destruct (ok_blocked _ _ _ _ _ _ _ _ Hlen HI Hts Hb) as (l&Hl&Hx). destruct (ok_shape _ _ _ _ _ _ _ _ _ (Hts _ _ _ Hi Hl)) as (Hk&_&_).
  destruct l; try done; cbn in Hx.
  - destruct (i_num _ _ HI) as (_&_&He&_). destruct (cnt_ex inexec ls) as (j&lj&Hj&Hlj); [lia|]. right. destruct (runner ls j lj) as (o'&p'&H1&H2&_); auto; [by destruct lj|destruct lj; cbn; solve [done|tauto]|]. eauto 10.
  - destruct (decide (spawn c.1 = 0%nat)) as [E|]; [right|lia]. pose proof (i_stat _ _ HI _ _ Hl) as (Hq1&Hq2&Hq3). destruct (worker_goes ls) as (j&l&o'&p'&Hj&H1&H2&_); auto; [lia..|]. eauto 10.
  - destruct Hne. by apply Hk.
Qed.
(** While it is closed and nobody opens or closes it, its thread does not exist. *)
Lemma closed_idle : is_open (hist c.1) = false -> users (hist c.1) = [] -> spawn c.1 = 0%nat /\ active (hist c.1) = [] /\ forall j p, c.2 !! j <> Some (Running Worker p).
Proof.
  intros Ho Hu. pose proof reach as (ls&Hlen&HI&Hts). pose proof (i_num _ _ HI) as (_&Hb&_&Hh&Hm&_).
  assert (cnt hold ls = 0%nat) as Hz.
  { destruct (decide (cnt hold ls = 0%nat)) as [|Hne]; [done|]. destruct (cnt_ex hold ls) as (j&l&Hj&Hl); [lia|]. pose proof (i_user _ _ HI j l Hj) as Hx. rewrite Hu in Hx.
    by apply elem_of_nil in Hx; [|destruct l]. }
  assert (sm c.1 = Closed) as Hs. { destruct (sm c.1) eqn:E; [done|lia| |lia]. by rewrite (proj2 (i_open _ _ HI) E) in Ho. }
  rewrite Hs in Hm. destruct Hm as (Hm&Hp2&_). split_and!; [done|..].
  - destruct (active (hist c.1)) as [|j a] eqn:E; [done|]. assert (ls !! j = Some K6) as Hj by (apply (i_act _ _ HI); rewrite E; by left). pose proof (cnt_pos isK ls j _ Hj eq_refl). lia.
  - intros j p Hj. assert (exists l, ls !! j = Some l) as [l Hl] by (apply lookup_lt_is_Some_2; rewrite Hlen; by eapply lookup_lt_Some). destruct (ok_shape _ _ _ _ _ _ _ _ _ (Hts _ _ _ Hj Hl)) as (Hk&_).
    pose proof (cnt_pos isK ls j _ Hl (proj2 Hk eq_refl)). lia.
Qed.
End reached.
