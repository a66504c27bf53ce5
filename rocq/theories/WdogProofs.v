(** Proofs about WATCHDOG. *)
From Verif Require Import Common Prog Conc ConcLists WdogModel WdogSpec.

Inductive pc :=
| Out | Nul
| T0 | T1 | T2 | T3 | T4 | T5 | TOk | F1 | F2 (b : bool) | TBad (b : bool)
| R0 | R1 | R2 | R3 | R4 (b : bool) | R5 (b : bool) | R6 (b : bool) | RRet (b c : bool)
| X0 | X1 | X2 | X3 | X4 | X5 | XRet
| E0 | E1 | E2 | E3 | ERet.
Definition isO (l : pc) : bool := match l with T0 | T1 | T2 | T3 | T4 | T5 | TOk | F1 | F2 _ | TBad _ | X0 | X1 | X2 | X3 | X4 | X5 | XRet => true | _ => false end.
Definition isR (l : pc) : bool := match l with R0 | R1 | R2 | R3 | R4 _ | R5 _ | R6 _ | RRet _ _ => true | _ => false end.
Definition isE (l : pc) : bool := match l with E0 | E1 | E2 | E3 | ERet => true | _ => false end.
Definition inexec (l : pc) : bool := match l with E1 | E2 | E3 => true | _ => false end.
Definition pre (l : pc) : bool := match l with E0 | E1 => true | _ => false end.
Definition hold (l : pc) : bool := match l with T3 | R1 | R2 | R3 | R5 _ | X1 | X2 => true | _ => false end.
Definition drain (l : pc) : bool := match l with R1 | X1 => true | _ => false end.
Definition held (l : pc) : bool := hold l && negb (drain l).
Definition atR4 (l : pc) : bool := match l with R4 _ => true | _ => false end.
Definition rest (l : pc) : bool := match l with R3 | R5 _ | R6 _ => true | _ => false end.
Definition user (l : pc) : bool := isO l || isR l.

Definition up (s : wdog) : Prop := mem s = true /\ smx s = true /\ tim s = true /\ tset s = true.
(** What a thread at l knows of the state. *)
Definition stat (s : wdog) (l : pc) : Prop :=
  match l with
  | T0 => mem s = false /\ smx s = false /\ tim s = false /\ tset s = false /\ sm s = Closed
  | T1 => mem s = true /\ smx s = false /\ tim s = false /\ tset s = false /\ sm s = Closed
  | T2 => mem s = true /\ smx s = true /\ tim s = false /\ tset s = false /\ sm s = Closed
  | T3 => mem s = true /\ smx s = true /\ tim s = false /\ tset s = false /\ sm s = Opening
  | T4 => mem s = true /\ smx s = true /\ tim s = false /\ tset s = false /\ sm s = Opened
  | T5 => mem s = true /\ smx s = true /\ tim s = true /\ tset s = false /\ sm s = Opened /\ cancelled (hist s) = false
  | TOk => up s /\ sm s = Opened /\ cancelled (hist s) = false
  | X0 => up s /\ sm s = Opened
  | F1 => mem s = true /\ smx s = true /\ tim s = false /\ tset s = false
  | F2 _ | X5 => mem s = true /\ smx s = false /\ tim s = false /\ tset s = false
  | TBad _ | XRet => mem s = false /\ smx s = false /\ tim s = false /\ tset s = false
  | R0 | R4 _ | R6 _ | RRet _ _ => up s
  | R1 | R2 | R3 | X1 | X2 => up s /\ sm s = Closing
  | R5 _ => up s /\ sm s = Opening
  | X3 => up s /\ sm s = Closed
  | X4 => mem s = true /\ smx s = true /\ tim s = false /\ tset s = false /\ sm s = Closed
  | _ => True
  end.
(** What it knows of what it has done. *)
Definition head2 (i : nat) (b : bool) : list event := if b then [Cancels i; Closes i] else [].
Definition know (i : nat) (h : list event) (op cl : Prop) (l : pc) : Prop :=
  match l with
  | T0 | T1 | T2 | T3 | R1 | X0 | X1 => own i h = []
  | T4 | F1 => own i h = [Opens i]
  | T5 | TOk => own i h = [Arms i; Opens i]
  | F2 b | TBad b => own i h = if b then [Opens i] else []
  | R0 => own i h = [] /\ (others i h = true \/ op)
  | R2 | X2 | X3 => own i h = [Closes i]
  | R3 | X4 | X5 | XRet => own i h = [Cancels i; Closes i]
  | R4 b => own i h = head2 i b /\ (b = false -> others i h = true) /\ (others i h = true \/ cl)
  | R5 b => own i h = head2 i b /\ (b = false -> others i h = true)
  | R6 b => own i h = Opens i :: head2 i b /\ (b = false -> others i h = true)
  | RRet b c => own i h = (if c then [Arms i; Opens i] else []) ++ head2 i b /\ (b && c = false -> others i h = true)
  | _ => True
  end.
Fixpoint all_ok (h : list event) : Prop := match h with [] => True | e :: h => event_ok e h /\ all_ok h end.
Local Instance smst_dec : EqDecision smst.
Proof. solve_decision. Defined.
Definition smn (m : smst) : nat := match m with Closed => 0 | Opening => 1 | Opened => 2 | Closing => 3 end.
Definition num_ok (s : wdog) (h : list event) (cO cR cE cex cfr chold cdr c4 crest : nat) : Prop :=
  cO <= 1 /\ (0 < cO -> cR = 0 /\ usable s = false /\ started s = true) /\ inside s = cR /\ (0 < cR -> usable s = true) /\
  (usable s = true -> mem s = true /\ smx s = true /\ tim s = true /\ tset s = true /\ started s = true) /\
  (started s = false -> mem s = false /\ smx s = false /\ tim s = false /\ tset s = false /\ smn (sm s) = 0) /\
  (tim s = false -> armed s = false /\ pend s = 0 /\ busy s = 0) /\
  (tim s = true -> mem s = true /\ smx s = true) /\
  busy s = cE /\ execs s = cex /\ (smn (sm s) = 1 \/ smn (sm s) = 3 -> chold = 1) /\ (smn (sm s) = 0 \/ smn (sm s) = 2 -> chold = 0) /\
  (0 < execs s -> smn (sm s) = 2 \/ 0 < cdr) /\ (0 < cdr -> smn (sm s) = 3) /\
  (usable s = true -> smn (sm s) = 0 -> 0 < c4) /\
  (usable s = true -> cancelled h = true -> 0 < crest \/ smn (sm s) = 0) /\
  (is_open h = true <-> smn (sm s) = 2 \/ 0 < cdr) /\
  (pend s + cfr <= credit h /\ Nat.b2n (armed s) + pend s + cfr + begun h <= periods h) /\
  (stopped h = true -> cO = 0 /\ usable s = false /\ started s = true /\ mem s = false /\ smx s = false /\ tim s = false).
Notation nums s h ls := (num_ok s h (cnt isO ls) (cnt isR ls) (cnt isE ls) (cnt inexec ls) (cnt pre ls) (cnt hold ls) (cnt drain ls) (cnt atR4 ls) (cnt rest ls)).
Record Inv (s : wdog) (ls : list pc) : Prop := {
  i_num : nums s (hist s) ls;
  i_stat : forall j l, ls !! j = Some l -> stat s l;
  i_know : forall j l, ls !! j = Some l -> know j (hist s) (sm s = Opened) (sm s = Closed) l;
  i_act : forall j, j ∈ active (hist s) -> ls !! j = Some E2;
  i_user : forall j l, ls !! j = Some l -> user l = true -> j ∈ users (hist s);
  i_ev : all_ok (hist s);
}.
Definition blk (i : nat) (l : pc) (s : wdog) : Prop := match l with R1 | X1 => 0 < execs s | R2 | X3 => 0 < busy s | _ => False end.
Definition shape (o : op) (p : prog wdog res) (l : pc) : Prop := (isE l = true <-> o = Expired) /\ l <> Out.
Ltac shp := unfold shape; cbn; split_and!; try done; auto.
Notation runs := (runs_ok watchdog Inv (.= Out) blk shape).

Lemma cnt_mono {A} (b1 b2 : A -> bool) (ls : list A) : (forall l, b1 l = true -> b2 l = true) -> cnt b1 ls <= cnt b2 ls.
Proof. intros H. unfold cnt, num. induction ls as [|l ls IH]; [done|]. rewrite !filter_cons. specialize (H l). repeat case_decide; cbn [length]; lia. Qed.
(** Histories. *)
Definition caller (e : event) : option nat := match e with Called i _ => Some i | _ => None end.
Definition actor (e : event) : option nat := match e with Opens i | Closes i | Arms i | Cancels i | Called i _ => Some i | _ => None end.
Lemma during_mono P i e h : caller e <> Some i -> during P i h = true -> during P i (e :: h) = true.
Proof. intros He H. cbn [during]. destruct e; try (rewrite H; apply orb_true_r). cbn in He. rewrite decide_False by congruence. rewrite H. apply orb_true_r. Qed.
Lemma during_now P i h : P h = true -> during P i h = true.
Proof. intros H. destruct h; cbn [during]; by rewrite H. Qed.
Lemma others_now i j h : j <> i -> j ∈ users h -> others i h = true.
Proof. intros Hne Hj. apply during_now, bool_decide_true. intros Hf. assert (j ∈ filter (.≠ i) (users h)) as Hin by (by apply elem_of_list_filter). rewrite Hf in Hin. by apply elem_of_nil in Hin. Qed.
Lemma own_other i e h : actor e <> Some i -> own i (e :: h) = own i h.
Proof. intros H. destruct e; cbn in *; try done; by rewrite decide_False by congruence. Qed.
Lemma know_mono j e h (op op' cl cl' : Prop) l : actor e <> Some j -> (op -> op' \/ others j h = true) -> (cl -> cl' \/ others j h = true) -> know j h op cl l -> know j (e :: h) op' cl' l.
Proof.
  intros He Hop Hcl. assert (others j h = true -> others j (e :: h) = true) as Hot by (apply during_mono; destruct e; cbn in *; congruence).
  destruct l; cbn [know]; rewrite ?(own_other _ _ _ He); naive_solver.
Qed.
Lemma know_sm j h (op op' cl cl' : Prop) l : (op -> op' \/ others j h = true) -> (cl -> cl' \/ others j h = true) -> know j h op cl l -> know j h op' cl' l.
Proof. intros Hop Hcl. destruct l; cbn [know]; naive_solver. Qed.
Lemma all_ok_at pre e h : all_ok (pre ++ e :: h) -> event_ok e h.
Proof. induction pre as [|x pre IH]; cbn; intros [? ?]; auto. Qed.

(** One step of thread i. *)
Lemma quiet s s' ls i l l' : Inv s ls -> ls !! i = Some l -> hist s' = hist s ->
  nums s' (hist s) (<[i := l']> ls) ->
  stat s' l' -> (forall j lj, ls !! j = Some lj -> j <> i -> stat s lj -> stat s' lj) ->
  (sm s' = sm s \/ user l = true) -> know i (hist s) (sm s' = Opened) (sm s' = Closed) l' ->
  l <> E2 -> user l' = user l ->
  Inv s' (<[i := l']> ls).
Proof.
  intros [] Hi Hh Hn Hs Hso Hsm Hk HK Hu. split; rewrite ?Hh; auto.
  - apply thr_upd; [done|]. intros j lj Hj Hne. eauto.
  - apply thr_upd; [done|]. intros j lj Hj Hne. destruct Hsm as [-> |Hul]; [by apply i_know0|]. assert (others j (hist s) = true) by (apply (others_now j i); [done|by eapply i_user0]).
    eapply know_sm; [| |by apply i_know0]; auto.
  - intros j Hj. rewrite list_lookup_insert_ne; [auto|]. intros <-. specialize (i_act0 _ Hj). congruence.
  - apply (thr_upd (fun j lj => user lj = true -> j ∈ users (hist s))); [rewrite Hu; eauto|]. eauto.
Qed.
Lemma hist_move s s' ls i l l' e : Inv s ls -> ls !! i = Some l -> hist s' = e :: hist s -> (match actor e with Some j => j = i | _ => True end) ->
  nums s' (e :: hist s) (<[i := l']> ls) ->
  stat s' l' -> (forall j lj, ls !! j = Some lj -> j <> i -> stat s lj -> stat s' lj) ->
  (sm s' = sm s \/ user l = true) -> know i (e :: hist s) (sm s' = Opened) (sm s' = Closed) l' ->
  (forall j, j ∈ active (e :: hist s) -> <[i := l']> ls !! j = Some E2) ->
  (forall j, j <> i -> j ∈ users (hist s) -> j ∈ users (e :: hist s)) -> (user l' = true -> i ∈ users (e :: hist s)) ->
  event_ok e (hist s) ->
  Inv s' (<[i := l']> ls).
Proof.
  intros [] Hi Hh He Hn Hs Hso Hsm Hk Ha Hu Hu' Hev. split; rewrite ?Hh; auto.
  - apply thr_upd; [done|]. intros j lj Hj Hne. eauto.
  - apply thr_upd; [done|]. intros j lj Hj Hne. assert (actor e <> Some j) by (destruct (actor e); congruence).
    destruct Hsm as [-> |Hul]; [eapply know_mono; [done| | |by apply i_know0]; auto|]. assert (others j (hist s) = true) by (apply (others_now j i); [done|by eapply i_user0]).
    eapply know_mono; [done| | |by apply i_know0]; auto.
  - apply (thr_upd (fun j lj => user lj = true -> j ∈ users (e :: hist s))); eauto.
  - by split.
Qed.
Ltac count1 b Hi l l' ls := try pose proof (cnt_pos b ls _ l Hi eq_refl); first [rewrite (cnt_same b ls _ l l' Hi eq_refl)|pose proof (cnt_upd b ls _ l l' Hi)].
Ltac counts Hi l l' ls := try pose proof (cnt_pos held ls _ l Hi eq_refl);
  count1 isO Hi l l' ls; count1 isR Hi l l' ls; count1 isE Hi l l' ls; count1 inexec Hi l l' ls; count1 pre Hi l l' ls; count1 hold Hi l l' ls; count1 drain Hi l l' ls; count1 atR4 Hi l l' ls; count1 rest Hi l l' ls;
  cbn [isO isR isE inexec pre hold drain atR4 rest Nat.b2n] in *.
Ltac subcounts ls := pose proof (cnt_sum hold drain held ls ltac:(by intros [])); pose proof (cnt_mono pre isE ls ltac:(by intros [])); pose proof (cnt_mono inexec isE ls ltac:(by intros [])).
(** Uses the implications whose premises hold, forgets the others, and lets lia finish. *)
Ltac noimp := repeat match goal with H : ?P -> ?Q |- _ => clear H | H : _ <-> _ |- _ => clear H end.
Ltac natural T := lazymatch T with @eq nat _ _ => idtac | _ <= _ => idtac | _ < _ => idtac | ?A \/ ?B => natural A; natural B | ?A /\ ?B => natural A; natural B end.
Tactic Notation "nlia" := lazymatch goal with |- @eq bool _ _ => exfalso | _ => idtac end; repeat match goal with H : ?T |- _ => lazymatch type of T with Prop => tryif natural T then fail else clear H end end; lia.
Ltac fwd := repeat match goal with H : ?P -> ?Q |- _ => let HP := fresh in assert P as HP by (first [assumption|reflexivity|lazymatch P with @eq bool _ _ => fail | _ => nlia end]); specialize (H HP); clear HP end; destruct_and?.
Ltac atoms := repeat match goal with H : ?x = true, H' : ?x = false |- _ => congruence | H : true = false |- _ => discriminate H | H : false = true |- _ => discriminate H end.
Ltac prune := repeat match goal with H : ?x = true -> _, H' : ?x = false |- _ => clear H | H : ?x = false -> _, H' : ?x = true |- _ => clear H
  | H : true = false -> _ |- _ => clear H | H : false = true -> _ |- _ => clear H
  | H : ?P -> ?Q |- _ => lazymatch P with @eq bool _ _ => fail | _ => let HP := fresh in assert (~ P) as HP by nlia; clear H HP end end.
Ltac crunch := intros; atoms; repeat match goal with H : _ <-> _ |- _ => destruct H end; fwd; atoms; noimp; split_and?; first [done|congruence|nlia|destruct_or?; first [congruence|nlia]].
Ltac fields := cbn [mem smx sm execs tset tim armed pend busy started usable inside hist set_mem set_smx set_sm set_tset set_tim set_use add_ev] in *.
Ltac evs := cbn [is_open credit cancelled stopped smn begun periods Nat.b2n] in *.
(** The numbers after a step of thread i from l to l'. *)
Ltac numeric HI Hi l l' ls :=
  let H := fresh in pose proof (i_num _ _ HI) as H; unfold num_ok in *; fields; evs; counts Hi l l' ls; destruct H as (?&?&?&?&?&?&?&?&?&?&?&?&?&?&?&?&?&?&?);
  repeat match goal with E : sm _ = _ |- _ => rewrite E in * end; evs; subcounts ls; fwd; prune;
  split_and!; try assumption; try solve [crunch|split; crunch].

(** The threads that do not take part in a step keep what they know. *)
Lemma stat_none s' lj : user lj = false -> stat s' lj.
Proof. by destruct lj. Qed.
Lemma stat_up s s' lj : isO lj = false -> hold lj = false -> mem s' = mem s -> smx s' = smx s -> tim s' = tim s -> tset s' = tset s -> stat s lj -> stat s' lj.
Proof. intros ? ? E1 E2 E3 E4. destruct lj; cbn; unfold up; try done; by rewrite E1, E2, E3, E4. Qed.
Lemma stat_same s s' lj : mem s' = mem s -> smx s' = smx s -> tim s' = tim s -> tset s' = tset s -> sm s' = sm s -> cancelled (hist s') = cancelled (hist s) -> stat s lj -> stat s' lj.
Proof. intros E1 E2 E3 E4 E5 E6. destruct lj; cbn; unfold up; try done; by rewrite E1, E2, E3, E4, ?E5, ?E6. Qed.
Lemma stat_res s s' lj : isO lj = false -> mem s' = mem s -> smx s' = smx s -> tim s' = tim s -> tset s' = tset s -> sm s' = sm s -> stat s lj -> stat s' lj.
Proof. intros ? E1 E2 E3 E4 E5. destruct lj; cbn; unfold up; try done; by rewrite E1, E2, E3, E4, ?E5. Qed.
Lemma owner s ls i j l lj : Inv s ls -> ls !! i = Some l -> ls !! j = Some lj -> j <> i -> isO l = true -> user lj = false.
Proof.
  intros HI Hi Hj Hne Hl. destruct (i_num _ _ HI) as (H1&H2&_). pose proof (cnt_pos isO ls i l Hi Hl). unfold user. destruct (isO lj) eqn:E.
  - pose proof (cnt_two isO ls i j l lj (not_eq_sym Hne) Hi Hj Hl E). lia.
  - destruct (isR lj) eqn:E'; [|done]. pose proof (cnt_pos isR ls j lj Hj E'). lia.
Qed.
Lemma resetter s ls i j l lj : Inv s ls -> ls !! i = Some l -> ls !! j = Some lj -> isR l = true -> isO lj = false.
Proof.
  intros HI Hi Hj Hl. destruct (i_num _ _ HI) as (H1&H2&_). pose proof (cnt_pos isR ls i l Hi Hl). destruct (isO lj) eqn:E; [|done]. pose proof (cnt_pos isO ls j lj Hj E). lia.
Qed.
Lemma holder s ls i j l lj : Inv s ls -> ls !! i = Some l -> ls !! j = Some lj -> j <> i -> hold l = true \/ sm s = Opened \/ sm s = Closed -> hold lj = false.
Proof.
  intros HI Hi Hj Hne Hl. destruct (i_num _ _ HI) as (_&_&_&_&_&_&_&_&_&_&H3&H4&_). destruct (hold lj) eqn:E; [|done]. pose proof (cnt_pos hold ls j lj Hj E). destruct Hl as [Hl|[Hl|Hl]]; [|rewrite Hl in *; cbn in *; lia..].
  pose proof (cnt_two hold ls i j l lj (not_eq_sym Hne) Hi Hj Hl E). destruct (sm s); cbn in *; lia.
Qed.
Lemma running s ls i l : Inv s ls -> ls !! i = Some l -> isO l || isR l || isE l = true -> stopped (hist s) = false /\ (isO l = false -> tim s = true).
Proof.
  intros HI Hi Hl. destruct (i_num _ _ HI) as (?&?&?&?&?&?&?&?&?&?&?&?&?&?&?&?&?&?&?). destruct (isO l) eqn:E1; [pose proof (cnt_pos isO ls i l Hi E1)|]; [split; [destruct (stopped (hist s)) eqn:E; [crunch|done]|done]|].
  destruct (isR l) eqn:E2; [pose proof (cnt_pos isR ls i l Hi E2)|]; [fwd; destruct (stopped (hist s)) eqn:E; split; crunch|].
  pose proof (cnt_pos isE ls i l Hi Hl). assert (tim s = true) by (destruct (tim s) eqn:?; [done|crunch]). split; [|done]. destruct (stopped (hist s)) eqn:E; [crunch|done].
Qed.
Section acts.
Context (i : nat) (s : wdog) (ls : list pc).
Context (HI : Inv s ls).
Ltac getk Hi := pose proof (i_know _ _ HI _ _ Hi) as Hk; pose proof (i_stat _ _ HI _ _ Hi) as Hs; cbn [know stat] in Hk, Hs; unfold up in Hs;
  pose proof (running _ _ _ _ HI Hi eq_refl) as [Hrun Htim]; cbn [isO] in Htim.
Ltac st_other Hi := let j := fresh "j" in let lj := fresh "lj" in let Hj := fresh "Hj" in let Hne := fresh "Hne" in intros j lj Hj Hne;
  first [ intros _; apply stat_none; exact (owner _ _ _ _ _ _ HI Hi Hj Hne eq_refl)
        | apply stat_same; (done || (fields; congruence))
        | apply stat_res; [exact (resetter _ _ _ _ _ _ HI Hi Hj eq_refl)|fields; congruence..]
        | apply stat_up; [exact (resetter _ _ _ _ _ _ HI Hi Hj eq_refl)|exact (holder _ _ _ _ _ _ HI Hi Hj Hne ltac:(auto))|fields; congruence..] ].
Ltac act_same := let j := fresh in let Hj := fresh in intros j Hj; cbn [active] in Hj; rewrite list_lookup_insert_ne; [by apply (i_act _ _ HI)|]; intros <-; apply (i_act _ _ HI) in Hj; congruence.
Ltac qui l l' Hi := apply (quiet s _ ls i l l'); auto; fields; try done; try (lazymatch goal with |- num_ok _ _ _ _ _ _ _ _ _ _ _ => numeric HI Hi l l' ls; fail | |- forall j lj, _ -> _ -> stat _ _ -> _ => st_other Hi end); try (cbn [stat know]; unfold up; fields; split_and?; solve [done|congruence]).
Ltac mov l l' e Hi := apply (hist_move s _ ls i l l' e); auto; fields; try done; try (lazymatch goal with |- num_ok _ _ _ _ _ _ _ _ _ _ _ => numeric HI Hi l l' ls; fail | |- forall j lj, _ -> _ -> stat _ _ -> _ => st_other Hi end); try (cbn [stat know]; unfold up; fields; split_and?; solve [done|congruence]); try (act_same; fail);
  try (cbn; intros _; eapply (i_user _ _ HI); [exact Hi|done]); try (cbn [know own]; rewrite ?decide_True by done; try solve [done|congruence]); try (split; cbn; done).
Lemma a_malloc : ls !! i = Some T0 -> match malloc_watchdog s with Done (_, s') => Inv s' (<[i := T1]> ls) | _ => False end.
Proof. intros Hi. getk Hi. destruct Hs as (?&?&?&?&?). unfold malloc_watchdog. qui T0 T1 Hi. Qed.
Lemma a_free_early : ls !! i = Some T1 -> match free_watchdog s with Done (_, s') => Inv s' (<[i := TBad false]> ls) | _ => False end.
Proof. intros Hi. getk Hi. destruct Hs as (E1&?&?&?&?). unfold free_watchdog. rewrite E1. qui T1 (TBad false) Hi. Qed.
Lemma a_sm_create : ls !! i = Some T1 -> match sm_create s with Done (_, s') => Inv s' (<[i := T2]> ls) | _ => False end.
Proof. intros Hi. getk Hi. destruct Hs as (E1&?&?&?&E2). unfold sm_create. rewrite E1. qui T1 T2 Hi. Qed.
Lemma a_open_first : ls !! i = Some T2 -> match sm_open_begin s with Done (x, s') => x = true /\ Inv s' (<[i := T3]> ls) | _ => False end.
Proof. intros Hi. getk Hi. destruct Hs as (E1&E2&?&?&E3). unfold sm_open_begin, usedsm. rewrite E1, E2, E3. cbn [andb]. split; [done|]. qui T2 T3 Hi. Qed.
Lemma a_open_end_first : ls !! i = Some T3 -> match sm_open_end i s with Done (_, s') => Inv s' (<[i := T4]> ls) /\ Inv s' (<[i := F1]> ls) | _ => False end.
Proof. intros Hi. getk Hi. destruct Hs as (E1&E2&?&?&E3). unfold sm_open_end, usesm. rewrite E1, E2, E3. cbn [andb]. split; [mov T3 T4 (Opens i) Hi|mov T3 F1 (Opens i) Hi]. Qed.
Lemma a_timer_start : ls !! i = Some T4 -> match timer_start i s with Done (_, s') => Inv s' (<[i := T5]> ls) | _ => False end.
Proof. intros Hi. getk Hi. destruct Hs as (E1&E2&?&?&E3). unfold timer_start. mov T4 T5 (Arms i) Hi. Qed.
Lemma a_store : ls !! i = Some T5 -> match store_timer s with Done (_, s') => Inv s' (<[i := TOk]> ls) | _ => False end.
Proof. intros Hi. getk Hi. destruct Hs as (E1&E2&?&?&E3&E4). unfold store_timer. rewrite E1. qui T5 TOk Hi. Qed.
Lemma no_exec : tim s = false -> execs s = 0.
Proof. intros E. destruct (i_num _ _ HI) as (?&?&?&?&?&?&?&?&?&?&_). pose proof (cnt_mono inexec isE ls ltac:(by intros [])). crunch. Qed.
Lemma a_destroy_fail : ls !! i = Some F1 -> match sm_destroy s with Done (_, s') => Inv s' (<[i := F2 true]> ls) | _ => False end.
Proof. intros Hi. getk Hi. destruct Hs as (E1&E2&E3&?). unfold sm_destroy, usesm. rewrite E1, E2. cbn [andb]. rewrite decide_True by (by apply no_exec). qui F1 (F2 true) Hi. Qed.
Lemma a_free_fail b : ls !! i = Some (F2 b) -> match free_watchdog s with Done (_, s') => Inv s' (<[i := TBad b]> ls) | _ => False end.
Proof. intros Hi. getk Hi. destruct Hs as (E1&E2&E3&?). unfold free_watchdog. rewrite E1. qui (F2 b) (TBad b) Hi. Qed.
Lemma no_active : execs s = 0 -> active (hist s) = [].
Proof.
  intros E. destruct (active (hist s)) as [|j a] eqn:Ea; [done|]. assert (ls !! j = Some E2) as Hj by (apply (i_act _ _ HI); rewrite Ea; by left).
  pose proof (cnt_pos inexec ls j _ Hj eq_refl). destruct (i_num _ _ HI) as (_&_&_&_&_&_&_&_&_&Hx&_). lia.
Qed.
(** reset *)
Lemma a_close_begin : ls !! i = Some R0 -> match sm_close_begin s with Done (x, s') => Inv s' (<[i := if x then R1 else R4 false]> ls) | _ => False end.
Proof.
  intros Hi. getk Hi. destruct Hs as (E1&E2&E3&E4). unfold sm_close_begin, usedsm. rewrite E1, E2. cbn [andb]. destruct Hk as [Hk1 Hk2]. destruct (sm s) eqn:E.
  3: qui R0 R1 Hi.
  all: qui R0 (R4 false) Hi; cbn [know]; split_and!; try done; naive_solver.
Qed.
Lemma a_drain : ls !! i = Some R1 -> match sm_drain i s with Done (_, s') => Inv s' (<[i := R2]> ls) | NoFuel => blk i R1 s | _ => False end.
Proof.
  intros Hi. getk Hi. destruct Hs as ((E1&E2&E3&E4)&E5). unfold sm_drain, usesm. rewrite E1, E2. cbn [andb]. case_decide as Ex; [|cbn; lia].
  mov R1 R2 (Closes i) Hi. split; [done|by apply no_active].
Qed.
Lemma a_cancel : ls !! i = Some R2 -> match timer_cancel i s with Done (_, s') => Inv s' (<[i := R3]> ls) | NoFuel => blk i R2 s | _ => False end.
Proof.
  intros Hi. getk Hi. destruct Hs as ((E1&E2&E3&E4)&E5). unfold timer_cancel, usetim. rewrite E1, E3, E4. cbn [andb]. case_decide as Ex; [|cbn; lia].
  mov R2 R3 (Cancels i) Hi.
Qed.
Lemma a_close_end : ls !! i = Some R3 -> match sm_close_end s with Done (_, s') => Inv s' (<[i := R4 true]> ls) | _ => False end.
Proof.
  intros Hi. getk Hi. destruct Hs as ((E1&E2&E3&E4)&E5). unfold sm_close_end, usesm. rewrite E1, E2, E5. cbn [andb].
  qui R3 (R4 true) Hi. cbn [know]. split_and!; auto; done.
Qed.
Lemma a_open_begin b : ls !! i = Some (R4 b) -> match sm_open_begin s with Done (x, s') => Inv s' (<[i := if x then R5 b else RRet b false]> ls) | _ => False end.
Proof.
  intros Hi. getk Hi. destruct Hs as (E1&E2&E3&E4). unfold sm_open_begin, usedsm. rewrite E1, E2. cbn [andb]. destruct Hk as (Hk1&Hk2&Hk3). destruct (sm s) eqn:E.
  1: qui (R4 b) (R5 b) Hi.
  all: qui (R4 b) (RRet b false) Hi; cbn [know app]; split_and!; try done; naive_solver.
Qed.
Lemma a_open_end b : ls !! i = Some (R5 b) -> match sm_open_end i s with Done (_, s') => Inv s' (<[i := R6 b]> ls) | _ => False end.
Proof.
  intros Hi. getk Hi. destruct Hs as ((E1&E2&E3&E4)&E5). unfold sm_open_end, usesm. rewrite E1, E2, E5. cbn [andb]. mov (R5 b) (R6 b) (Opens i) Hi. destruct Hk as [-> Hk]. split; [done|]. intros Hb. apply during_mono; auto; done.
Qed.
Lemma a_restart b : ls !! i = Some (R6 b) -> match timer_restart i s with Done (_, s') => Inv s' (<[i := RRet b true]> ls) | _ => False end.
Proof.
  intros Hi. getk Hi. destruct Hs as (E1&E2&E3&E4). unfold timer_restart, usetim. rewrite E1, E3, E4. cbn [andb]. mov (R6 b) (RRet b true) (Arms i) Hi. destruct Hk as [-> Hk]. split; [done|]. rewrite andb_true_r. intros Hb. apply during_mono; auto; done.
Qed.
(** stop *)
Lemma a_close_begin_stop : ls !! i = Some X0 -> match sm_close_begin s with Done (x, s') => x = true /\ Inv s' (<[i := X1]> ls) | _ => False end.
Proof.
  intros Hi. getk Hi. destruct Hs as ((E1&E2&E3&E4)&E5). unfold sm_close_begin, usedsm. rewrite E1, E2, E5. cbn [andb]. split; [done|]. qui X0 X1 Hi.
Qed.
Lemma a_drain_stop : ls !! i = Some X1 -> match sm_drain i s with Done (_, s') => Inv s' (<[i := X2]> ls) | NoFuel => blk i X1 s | _ => False end.
Proof.
  intros Hi. getk Hi. destruct Hs as ((E1&E2&E3&E4)&E5). unfold sm_drain, usesm. rewrite E1, E2. cbn [andb]. case_decide as Ex; [|cbn; lia].
  mov X1 X2 (Closes i) Hi. split; [done|by apply no_active].
Qed.
Lemma a_close_end_stop : ls !! i = Some X2 -> match sm_close_end s with Done (_, s') => Inv s' (<[i := X3]> ls) | _ => False end.
Proof.
  intros Hi. getk Hi. destruct Hs as ((E1&E2&E3&E4)&E5). unfold sm_close_end, usesm. rewrite E1, E2, E5. cbn [andb]. qui X2 X3 Hi.
Qed.
Lemma a_drop : ls !! i = Some X3 -> match timer_drop i s with Done (_, s') => Inv s' (<[i := X4]> ls) | NoFuel => blk i X3 s | _ => False end.
Proof.
  intros Hi. getk Hi. destruct Hs as ((E1&E2&E3&E4)&E5). unfold timer_drop, usetim. rewrite E1, E3, E4. cbn [andb]. case_decide as Ex; [|cbn; lia].
  mov X3 X4 (Cancels i) Hi.
Qed.
Lemma a_destroy_stop : ls !! i = Some X4 -> match sm_destroy s with Done (_, s') => Inv s' (<[i := X5]> ls) | _ => False end.
Proof. intros Hi. getk Hi. destruct Hs as (E1&E2&E3&E4&E5). unfold sm_destroy, usesm. rewrite E1, E2. cbn [andb]. rewrite decide_True by (by apply no_exec). qui X4 X5 Hi. Qed.
Lemma a_free_stop : ls !! i = Some X5 -> match free_watchdog s with Done (_, s') => Inv s' (<[i := XRet]> ls) | _ => False end.
Proof. intros Hi. getk Hi. destruct Hs as (E1&E2&E3&?). unfold free_watchdog. rewrite E1. qui X5 XRet Hi. Qed.
(** expired *)
Lemma up_e l : ls !! i = Some l -> isE l = true -> mem s = true /\ smx s = true.
Proof. intros Hi Hl. destruct (running _ _ _ _ HI Hi) as [_ Ht]; [by rewrite Hl, orb_true_r|]. destruct (i_num _ _ HI) as (_&_&_&_&_&_&_&Hx&_). apply Hx, Ht. by destruct l. Qed.
Lemma a_exec_begin : ls !! i = Some E0 -> match sm_exec_begin s with Done (x, s') => Inv s' (<[i := if x then E1 else ERet]> ls) | _ => False end.
Proof.
  intros Hi. getk Hi. destruct (up_e _ Hi eq_refl) as [Ex1 Ex2]. unfold sm_exec_begin, usedsm. rewrite Ex1, Ex2. cbn [andb]. destruct (sm s) eqn:E.
  3: qui E0 E1 Hi.
  all: qui E0 ERet Hi.
Qed.
Lemma a_begin : ls !! i = Some E1 -> match begin_callback i s with Done (_, s') => Inv s' (<[i := E2]> ls) | _ => False end.
Proof.
  intros Hi. getk Hi. destruct (up_e _ Hi eq_refl) as [Ex1 Ex2]. unfold begin_callback. rewrite Ex1. mov E1 E2 (Begins i) Hi.
  - cbn [active]. intros j [ -> |Hj]%elem_of_cons; [by eapply upd_at|]. rewrite list_lookup_insert_ne; [by apply (i_act _ _ HI)|]. intros <-. apply (i_act _ _ HI) in Hj. congruence.
  - split; [done|]. pose proof (cnt_pos inexec ls i _ Hi eq_refl). pose proof (cnt_pos pre ls i _ Hi eq_refl). destruct (i_num _ _ HI) as (_&_&_&_&_&_&_&_&_&H1&_&_&H2&_&_&_&H3&H4&_). split_and!; [apply H3, H2; lia|lia|lia].
Qed.
Lemma a_end : ls !! i = Some E2 -> match end_callback i s with Done (_, s') => Inv s' (<[i := E3]> ls) | _ => False end.
Proof.
  intros Hi. getk Hi. unfold end_callback. mov E2 E3 (Ends i) Hi.
  cbn [active]. intros j [Hne Hj]%elem_of_list_filter. rewrite list_lookup_insert_ne by done. by apply (i_act _ _ HI).
Qed.
Lemma a_exec_end : ls !! i = Some E3 -> match sm_exec_end s with Done (_, s') => Inv s' (<[i := ERet]> ls) | _ => False end.
Proof.
  intros Hi. getk Hi. destruct (up_e _ Hi eq_refl) as [Ex1 Ex2]. unfold sm_exec_end, usesm. rewrite Ex1, Ex2. cbn [andb]. destruct (execs s) eqn:E; [|qui E3 ERet Hi].
  pose proof (cnt_pos inexec ls i _ Hi eq_refl). destruct (i_num _ _ HI) as (_&_&_&_&_&_&_&_&_&H1&_). lia.
Qed.
End acts.

Definition post (i : nat) (o : op) : res -> pc -> Prop := fun r l => forall s ls, ls !! i = Some l -> Inv s ls -> exists l', l' = Out /\ Inv (returns watchdog i o r s) (<[i := l']> ls).
Definition answers (o : op) (r : res) (l : pc) : Prop :=
  match o with
  | Start a m1 m2 m3 => (l = TOk /\ a && m1 && m2 && m3 = true /\ r = Handle true) \/ (l = TBad (a && m1 && m2) /\ a && m1 && m2 && m3 = false /\ r = Handle false)
  | Reset true => (exists b c, l = RRet b c) /\ r = Void
  | Stop true => l = XRet /\ r = Void
  | Expired => l = ERet /\ r = Void
  | Reset false | Stop false => l = Nul /\ r = Void
  end.
Lemma ret_ok i o r l : answers o r l -> post i o r l.
Proof.
  intros Ha s ls Hi HI. exists Out. split; [done|]. cbn [returns watchdog]. pose proof (i_know _ _ HI _ _ Hi) as Hk. pose proof (i_stat _ _ HI _ _ Hi) as Hs.
  assert (forall j, j ∈ active (hist s) -> l <> E2 -> <[i := Out]> ls !! j = Some E2) as Hact.
  { intros j Hj Hl. rewrite list_lookup_insert_ne; [by apply (i_act _ _ HI)|]. intros <-. apply (i_act _ _ HI) in Hj. congruence. }
  assert (forall j, j <> i -> j ∈ users (hist s) -> j ∈ filter (.≠ i) (users (hist s))) as Husr by (intros; by apply elem_of_list_filter).
  destruct o as [a m1 m2 m3|[]|[]|]; cbn [answers] in Ha.
  - destruct Ha as [(->&Em&->)|(->&Em&->)]; destruct (running _ _ _ _ HI Hi eq_refl) as [Hrun _].
    + cbn [stat] in Hs. unfold up in Hs. destruct Hs as ((?&?&?&?)&?&?). apply (hist_move s _ ls i TOk Out (Returned i (Start a m1 m2 m3) (Handle true))); auto; fields; try done.
      * numeric HI Hi TOk Out ls.
      * split; [done|]. rewrite Em. done.
    + cbn [stat] in Hs. destruct Hs as (?&?&?&?). apply (hist_move s _ ls i (TBad (a && m1 && m2)) Out (Returned i (Start a m1 m2 m3) (Handle false))); auto; fields; try done.
      * numeric HI Hi (TBad (a && m1 && m2)) Out ls.
      * split; [done|]. rewrite Em. done.
  - destruct Ha as [(b&c&->) ->]. destruct (running _ _ _ _ HI Hi eq_refl) as [Hrun _]. apply (hist_move s _ ls i (RRet b c) Out (Returned i (Reset true) Void)); auto; fields; try done.
    + numeric HI Hi (RRet b c) Out ls.
    + cbn [event_ok]. split_and!; try done. intros _. cbn [know] in Hk. destruct Hk as [-> Hk]. destruct b, c; cbn; auto; right; (split; [by apply Hk|]); rewrite !elem_of_cons; auto.
  - destruct Ha as [-> ->]. apply (hist_move s _ ls i Nul Out (Returned i (Reset false) Void)); auto; fields; try done.
    + numeric HI Hi Nul Out ls.
  - destruct Ha as [-> ->]. cbn [stat know] in Hs, Hk. destruct (running _ _ _ _ HI Hi eq_refl) as [Hrun _]. destruct Hs as (?&?&?&?). apply (hist_move s _ ls i XRet Out (Returned i (Stop true) Void)); auto; fields; try done.
    + numeric HI Hi XRet Out ls.
  - destruct Ha as [-> ->]. apply (hist_move s _ ls i Nul Out (Returned i (Stop false) Void)); auto; fields; try done.
    + numeric HI Hi Nul Out ls.
  - destruct Ha as [-> ->]. destruct (running _ _ _ _ HI Hi eq_refl) as [Hrun _]. apply (hist_move s _ ls i ERet Out (Returned i Expired Void)); auto; fields; try done.
    + numeric HI Hi ERet Out ls.
Qed.

Ltac act_step lem := apply wpa_act; [shp|]; intros s0 ls0 Hi0 HI0; pose proof (lem _ _ _ HI0 Hi0) as Hact.
Ltac fin := apply wpa_ret; [shp|apply ret_ok; cbn; eauto 10].
Lemma expired_ok i : runs i Expired (watchdog_expired_callback i) E0.
Proof.
  unfold watchdog_expired_callback. act_step a_exec_begin. destruct (sm_exec_begin s0) as [[[] s1]| |]; [|..|done|done].
  2: { exists ERet. split; [done|]. fin. }
  exists E1. split; [done|]. clear. act_step a_begin. destruct (begin_callback i s0) as [[[] s1]| |]; [|done..]. exists E2. split; [done|]. clear.
  act_step a_end. destruct (end_callback i s0) as [[[] s1]| |]; [|done..]. exists E3. split; [done|]. clear.
  act_step a_exec_end. destruct (sm_exec_end s0) as [[[] s1]| |]; [|done..]. exists ERet. split; [done|]. clear. fin.
Qed.
Lemma start_ok i m2 m3 : runs i (Start true true m2 m3) (watchdog_start i true true m2 m3) T0.
Proof.
  unfold watchdog_start. cbn [negb]. act_step a_malloc. destruct (malloc_watchdog s0) as [[[] s1]| |]; [|done..]. exists T1. split; [done|]. clear. destruct m2; cbn [negb].
  2: { act_step a_free_early. destruct (free_watchdog s0) as [[[] s1]| |]; [|done..]. exists (TBad false). split; [done|]. clear. fin. }
  act_step a_sm_create. destruct (sm_create s0) as [[[] s1]| |]; [|done..]. exists T2. split; [done|]. clear.
  act_step a_open_first. destruct (sm_open_begin s0) as [[x s1]| |]; [|done..]. destruct Hact as [-> Hact]. exists T3. split; [done|]. clear. cbn [negb].
  act_step a_open_end_first. destruct (sm_open_end i s0) as [[[] s1]| |]; [|done..]. destruct Hact as [Ha1 Ha2]. destruct m3; cbn [negb].
  - exists T4. split; [done|]. clear. act_step a_timer_start. destruct (timer_start i s0) as [[[] s1]| |]; [|done..]. exists T5. split; [done|]. clear.
    act_step a_store. destruct (store_timer s0) as [[[] s1]| |]; [|done..]. exists TOk. split; [done|]. clear. fin.
  - exists F1. split; [done|]. clear. act_step a_destroy_fail. destruct (sm_destroy s0) as [[[] s1]| |]; [|done..]. exists (F2 true). split; [done|]. clear.
    act_step (fun i s ls HI => a_free_fail i s ls HI true). destruct (free_watchdog s0) as [[[] s1]| |]; [|done..]. exists (TBad true). split; [done|]. clear. fin.
Qed.
Lemma restart_ok i b : runs i (Reset true) (watchdog_reset_restart i) (R4 b).
Proof.
  unfold watchdog_reset_restart. act_step (fun i s ls HI => a_open_begin i s ls HI b). destruct (sm_open_begin s0) as [[[] s1]| |]; [|..|done|done].
  2: { exists (RRet b false). split; [done|]. fin. }
  exists (R5 b). split; [done|]. clear. act_step (fun i s ls HI => a_open_end i s ls HI b). destruct (sm_open_end i s0) as [[[] s1]| |]; [|done..]. exists (R6 b). split; [done|]. clear.
  act_step (fun i s ls HI => a_restart i s ls HI b). destruct (timer_restart i s0) as [[[] s1]| |]; [|done..]. exists (RRet b true). split; [done|]. clear. fin.
Qed.
Lemma reset_ok i : runs i (Reset true) (watchdog_reset i true) R0.
Proof.
  unfold watchdog_reset. cbn [negb]. act_step a_close_begin. destruct (sm_close_begin s0) as [[[] s1]| |]; [|..|done|done].
  2: { exists (R4 false). split; [done|]. apply restart_ok. }
  exists R1. split; [done|]. clear. act_step a_drain. destruct (sm_drain i s0) as [[[] s1]| |]; [|done..]. exists R2. split; [done|]. clear.
  act_step a_cancel. destruct (timer_cancel i s0) as [[[] s1]| |]; [|done..]. exists R3. split; [done|]. clear.
  act_step a_close_end. destruct (sm_close_end s0) as [[[] s1]| |]; [|done..]. exists (R4 true). split; [done|]. apply restart_ok.
Qed.
Lemma stop_ok i : runs i (Stop true) (watchdog_stop i true) X0.
Proof.
  unfold watchdog_stop. cbn [negb]. act_step a_close_begin_stop. destruct (sm_close_begin s0) as [[x s1]| |]; [|done..]. destruct Hact as [-> Hact]. exists X1. split; [done|]. clear.
  act_step a_drain_stop. destruct (sm_drain i s0) as [[[] s1]| |]; [|done..]. exists X2. split; [done|]. clear.
  act_step a_close_end_stop. destruct (sm_close_end s0) as [[[] s1]| |]; [|done..]. exists X3. split; [done|]. clear. unfold watchdog_stop_free.
  act_step a_drop. destruct (timer_drop i s0) as [[[] s1]| |]; [|done..]. exists X4. split; [done|]. clear.
  act_step a_destroy_stop. destruct (sm_destroy s0) as [[[] s1]| |]; [|done..]. exists X5. split; [done|]. clear.
  act_step a_free_stop. destruct (free_watchdog s0) as [[[] s1]| |]; [|done..]. exists XRet. split; [done|]. clear. fin.
Qed.
Lemma not_opened s ls : Inv s ls -> usable s = true -> sm s <> Opened -> exists j lj, ls !! j = Some lj /\ user lj = true.
Proof.
  intros HI Hu Hne. destruct (i_num _ _ HI) as (_&_&_&_&_&_&_&_&_&_&H1&_&_&_&H2&_). destruct (sm s) eqn:E; cbn in *; [|..|done|].
  - destruct (cnt_ex atR4 ls) as (j&lj&Hj&Hl); [auto|]. exists j, lj. split; [done|]. by destruct lj.
  - destruct (cnt_ex hold ls) as (j&lj&Hj&Hl); [lia|]. exists j, lj. split; [done|]. by destruct lj.
  - destruct (cnt_ex hold ls) as (j&lj&Hj&Hl); [lia|]. exists j, lj. split; [done|]. by destruct lj.
Qed.
Lemma call_ok i o s s' ls l : ls !! i = Some l -> l = Out -> Inv s ls -> calls watchdog i o s = Some s' -> exists l', Inv s' (<[i := l']> ls) /\ runs i o (code watchdog i o) l'.
Proof.
  intros Hi -> HI Hc.
  assert (forall j l', j ∈ active (hist s) -> <[i := l']> ls !! j = Some E2) as Hact.
  { intros j l' Hj. rewrite list_lookup_insert_ne; [by apply (i_act _ _ HI)|]. intros <-. apply (i_act _ _ HI) in Hj. congruence. }
  assert (forall j, j ∈ users (hist s) -> j ∈ i :: users (hist s)) as Hcons by (intros; by right).
  assert (usable s = true -> stopped (hist s) = false /\ up s) as Hus.
  { intros Hu. destruct (i_num _ _ HI) as (_&_&_&_&H1&_&_&_&_&_&_&_&_&_&_&_&_&_&H2). unfold up. split; [|tauto]. destruct (stopped (hist s)) eqn:E; [|done]. destruct H2 as (_&?&_); congruence. }
  destruct o as [a m1 m2 m3|[]|[]|]; cbn [calls watchdog code] in *; simplify_eq.
  - destruct (started s) eqn:Est; [done|]. simplify_eq.
    assert (own i (Called i (Start a m1 m2 m3) :: hist s) = []) as Hown by (cbn; by rewrite decide_True).
    assert (cnt isO ls = 0 /\ mem s = false /\ smx s = false /\ tim s = false /\ tset s = false /\ sm s = Closed /\ usable s = false /\ stopped (hist s) = false /\ cnt isR ls = 0) as (H1&H2&H3&H4&H5&H6&H7&H8&H9).
    { destruct (i_num _ _ HI) as (?&?&?&?&?&Hx&?&?&?&?&?&?&?&?&?&?&?&?&?). destruct (Hx Est) as (?&?&?&?&?). assert (usable s = false) by (destruct (usable s) eqn:?; [|done]; crunch).
      split_and!; try done. - destruct (cnt isO ls) eqn:?; [done|]. crunch. - by destruct (sm s). - destruct (stopped (hist s)) eqn:?; [|done]. crunch. - destruct (cnt isR ls) eqn:?; [done|]. crunch. }
    destruct (a && m1) eqn:Eam.
    + apply andb_prop in Eam as [-> ->]. exists T0. split; [|apply start_ok]. apply (hist_move s _ ls i Out T0 (Called i (Start true true m2 m3))); auto; fields; try done.
      * numeric HI Hi Out T0 ls.
      * cbn. intros _. by left.
    + exists (TBad false). split; [|destruct a, m1; try done; fin]. apply (hist_move s _ ls i Out (TBad false) (Called i (Start a m1 m2 m3))); auto; fields; try done.
      * numeric HI Hi Out (TBad false) ls.
      * cbn. intros _. by left.
  - destruct (usable s) eqn:Eu; [|done]. simplify_eq. destruct (Hus eq_refl) as [Hst Hup]. unfold up in Hup. destruct Hup as (?&?&?&?). exists R0. split; [|apply reset_ok].
    apply (hist_move s _ ls i Out R0 (Called i (Reset true))); auto; fields; try done.
    + numeric HI Hi Out R0 ls.
    + cbn [know]. split; [cbn; by rewrite decide_True|]. destruct (decide (sm s = Opened)) as [|Hne]; [by right|left]. destruct (not_opened _ _ HI Eu Hne) as (j&lj&Hj&Hl).
      apply (others_now i j); [intros ->; rewrite Hi in Hj; by simplify_eq|]. cbn. right. by eapply (i_user _ _ HI).
    + cbn. intros _. by left.
  - exists Nul. split; [|fin]. apply (hist_move s _ ls i Out Nul (Called i (Reset false))); auto; fields; try done. numeric HI Hi Out Nul ls.
  - destruct (usable s) eqn:Eu; [|done]. case_bool_decide as Ein; [|done]. cbn in Hc. simplify_eq. destruct (Hus eq_refl) as [Hst Hup]. unfold up in Hup. destruct Hup as (?&?&?&?).
    assert (sm s = Opened) as Hsm. { destruct (decide (sm s = Opened)) as [|Hne]; [done|]. destruct (not_opened _ _ HI Eu Hne) as (j&lj&Hj&Hl). destruct (i_num _ _ HI) as (_&Hn1&Hn2&_). unfold user in Hl. apply orb_prop in Hl as [Hl|Hl].
      - pose proof (cnt_pos isO ls j lj Hj Hl) as Hp. destruct (Hn1 Hp) as (_&?&_). congruence. - pose proof (cnt_pos isR ls j lj Hj Hl) as Hp. lia. }
    exists X0. split; [|apply stop_ok].
    apply (hist_move s _ ls i Out X0 (Called i (Stop true))); auto; fields; try done.
    + assert (cnt isO ls = 0) by (destruct (cnt isO ls) eqn:Ez; [done|]; destruct (i_num _ _ HI) as (_&Hn1&_); destruct Hn1 as (_&?&_); [lia|congruence]). numeric HI Hi Out X0 ls.
    + cbn. by rewrite decide_True.
    + cbn. intros _. by left.
  - exists Nul. split; [|fin]. apply (hist_move s _ ls i Out Nul (Called i (Stop false))); auto; fields; try done. numeric HI Hi Out Nul ls.
  - destruct (pend s) as [|n] eqn:En; [done|]. simplify_eq. assert (tim s = true) as Ht. { destruct (tim s) eqn:E; [done|]. destruct (i_num _ _ HI) as (_&_&_&_&_&_&Hx&_). destruct (Hx E) as (_&?&_). lia. }
    exists E0. split; [|apply expired_ok]. apply (hist_move s _ ls i Out E0 (Called i Expired)); auto; fields; try done.
    + numeric HI Hi Out E0 ls.
    + split; [|done]. destruct (stopped (hist s)) eqn:E; [|done]. destruct (i_num _ _ HI) as (_&_&_&_&_&_&_&_&_&_&_&_&_&_&_&_&_&_&H2). destruct (H2 E) as (_&_&_&_&_&?). congruence.
Qed.
Lemma env_ok s s' ls : Inv s ls -> env watchdog s s' -> Inv s' ls.
Proof.
  intros HI [Ha ->]. assert (tim s = true) as Ht. { destruct (tim s) eqn:E; [done|]. destruct (i_num _ _ HI) as (_&_&_&_&_&_&Hx&_). destruct (Hx E) as (?&_). congruence. }
  assert (stopped (hist s) = false) as Hst. { destruct (stopped (hist s)) eqn:E; [|done]. destruct (i_num _ _ HI) as (_&_&_&_&_&_&_&_&_&_&_&_&_&_&_&_&_&_&H2). destruct (H2 E) as (_&_&_&_&_&?). congruence. }
  destruct HI. split; fields; auto.
  - unfold num_ok in *. fields. evs. destruct i_num0 as (?&?&?&?&?&?&?&?&?&?&?&?&?&?&?&?&?&?&?). rewrite Ha in *. evs. split_and!; try assumption; try congruence; nlia.
  - intros j l Hj. eapply know_mono; [..|by apply i_know0]; auto; done.
  - split; [split; [done|done]|done].
Qed.
Lemma init_ok n : Inv initial (replicate n Out).
Proof.
  split; cbn; try done.
  - rewrite !cnt_replicate by done. unfold num_ok. cbn. split_and!; try done; try lia; intros; done || lia.
  - intros j l [-> _]%lookup_replicate. done.
  - intros j l [-> _]%lookup_replicate. done.
  - intros j Hj. by apply elem_of_nil in Hj.
  - intros j l [-> _]%lookup_replicate. done.
Qed.
Section reached.
Context (n : nat) (c : wdog * list (thread wdog op res)).
Context (Hr : reachable watchdog initial n c).
Lemma reach : conf_ok watchdog Inv (.= Out) blk shape c.
Proof. eapply (reach_ok watchdog Inv (.= Out) blk shape) with (l0 := Out); [exact call_ok|exact env_ok|done| |exact Hr]. apply init_ok. Qed.
Lemma history later ev before : hist c.1 = later ++ ev :: before -> event_ok ev before.
Proof. intros Hh. destruct reach as (ls&_&HI&_). eapply all_ok_at. rewrite <-Hh. apply HI. Qed.
Lemma no_crash i : ~ crashed c i.
Proof. eapply ok_no_crash, reach. Qed.
Lemma runner ls j l : length ls = length c.2 -> (forall i t l, c.2 !! i = Some t -> ls !! i = Some l -> thr_ok watchdog Inv (.= Out) blk shape i t l) -> Inv c.1 ls -> ls !! j = Some l -> l <> Out -> ~ blk j l c.1 ->
  exists o p, c.2 !! j = Some (Running o p) /\ ~ blocked c j /\ shape o p l.
Proof.
  intros Hlen Hts HI Hj Hl Hb. assert (exists t, c.2 !! j = Some t) as [t Ht] by (apply lookup_lt_is_Some_2; rewrite <-Hlen; by eapply lookup_lt_Some). pose proof (Hts _ _ _ Ht Hj) as Hok.
  destruct t as [|o p]; [done|]. exists o, p. split_and!; [done| |by eapply ok_shape].
  intros Hbl. destruct (ok_blocked _ _ _ _ _ _ _ _ Hlen HI Hts Hbl) as (l'&Hl'&Hx). rewrite Hj in Hl'. by injection Hl' as <-.
Qed.
Lemma no_deadlock i : blocked c i -> exists j p, c.2 !! j = Some (Running Expired p) /\ ~ blocked c j.
Proof.
  intros Hb. pose proof reach as (ls&Hlen&HI&Hts). destruct (ok_blocked _ _ _ _ _ _ _ _ Hlen HI Hts Hb) as (l&Hl&Hx).
  assert (exists j lj, ls !! j = Some lj /\ isE lj = true) as (j&lj&Hj&He).
  { destruct (i_num _ _ HI) as (_&_&_&_&_&_&_&_&H1&H2&_). pose proof (cnt_mono inexec isE ls ltac:(by intros [])). apply cnt_ex. destruct l; try done; cbn in Hx; lia. }
  destruct (runner ls j lj) as (o&p&Hj1&Hj2&Hj3&_); auto; [by destruct lj|destruct lj; cbn; solve [done|tauto]|]. exists j, p. split; [|done]. rewrite Hj1. do 2 f_equal. by apply Hj3.
Qed.
(** Between the calls the watchdog is either not there at all, or it is on and its timer has been armed since it was last cancelled. *)
Lemma between : users (hist c.1) = [] ->
  (usable c.1 = true -> is_open (hist c.1) = true /\ cancelled (hist c.1) = false /\ mem c.1 = true /\ smx c.1 = true /\ tim c.1 = true /\ tset c.1 = true) /\
  (stopped (hist c.1) = true -> armed c.1 = false /\ pend c.1 = 0 /\ active (hist c.1) = [] /\ mem c.1 = false /\ smx c.1 = false /\ tim c.1 = false /\ forall j p, c.2 !! j <> Some (Running Expired p)).
Proof.
  intros Hu. pose proof reach as (ls&Hlen&HI&Hts). assert (forall j lj, ls !! j = Some lj -> user lj = true -> False) as Hnu by (intros j lj Hj Hl; pose proof (i_user _ _ HI _ _ Hj Hl) as Hx; rewrite Hu in Hx; by apply elem_of_nil in Hx).
  split.
  - intros Hus. assert (sm c.1 = Opened) as Hsm. { destruct (decide (sm c.1 = Opened)) as [|Hne]; [done|]. destruct (not_opened _ _ HI Hus Hne) as (j&lj&Hj&Hl). by destruct (Hnu j lj). }
    destruct (i_num _ _ HI) as (_&_&_&_&H1&_&_&_&_&_&_&_&_&_&_&H2&H3&_). rewrite Hsm in *. cbn in *. destruct (H1 Hus) as (?&?&?&?&_). split_and!; auto.
    + apply H3. by left.
    + destruct (cancelled (hist c.1)); [|done]. destruct (H2 Hus eq_refl) as [Hp|]; [|done]. destruct (cnt_ex rest ls Hp) as (j&lj&Hj&Hl). destruct (Hnu j lj Hj). by destruct lj.
  - intros Hst. destruct (i_num _ _ HI) as (_&_&_&_&_&_&H1&_&H2&H3&_&_&_&_&_&_&_&_&H4). destruct (H4 Hst) as (_&_&_&Hm1&Hm2&Hm3). destruct (H1 Hm3) as (Hm4&Hm5&Hm6). pose proof (cnt_mono inexec isE ls ltac:(by intros [])). split_and!; auto.
    + eapply no_active; [done|]. lia.
    + intros j p Hj. assert (exists l, ls !! j = Some l) as [l Hl] by (apply lookup_lt_is_Some_2; rewrite Hlen; by eapply lookup_lt_Some). destruct (ok_shape _ _ _ _ _ _ _ _ _ (Hts _ _ _ Hj Hl)) as (Hk&_).
      pose proof (cnt_pos isE ls j _ Hl (proj2 Hk eq_refl)). lia.
Qed.
End reached.
