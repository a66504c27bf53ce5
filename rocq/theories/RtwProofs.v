(** Proofs about the retry wrapper. The context has one owner at a time: a thread, the asynchronous function, or the threadpool. *)
From Verif Require Import Common Prog Conc ConcLists RtwModel RtwSpec.
Local Open Scope Z_scope.

Notation view := (option context -> nat -> list event -> Prop).
Definition stable (F : view) : Prop := forall c r h i o a, F c r h -> F c r (Returned i o a :: h).
(** Own w F: the thread owns the context, of which F holds (w: it is in a call of the wrapper); Tail: in a call of the wrapper that has succeeded; Gone: in another call that does no more. *)
Inductive lst := Out | Own (w : bool) (F : view) | Tail | Gone.
Definition own (l : lst) : bool := match l with Own _ _ => true | _ => false end.
Definition isw (l : lst) : bool := match l with Own w _ => w | Tail => true | _ => false end.

Section proofs.
Context (C : config) (HC : expected_return C ∉ retry_sync C).
Fixpoint idx (l : list bool) (n : nat) : list nat := match l with [] => [] | true :: l => n :: idx l (S n) | false :: l => idx l (S n) end.
Notation full := (idx (custom C) 0).
Lemma idx_spec l n : omap (fun '(k, b) => if (b : bool) then Some k else None) (imap (fun i x => ((n + i)%nat, x)) l) = idx l n.
Proof.
  revert n. induction l as [|b l IH]; intros n; [done|]. rewrite imap_cons. specialize (IH (S n)).
  rewrite (imap_ext _ ((fun i (x : bool) => ((S n + i)%nat, x)))) by (intros i x _; cbn; f_equal; lia). destruct b; cbn [idx]; rewrite <-IH; [|done]. cbn. by rewrite Nat.add_0_r.
Qed.
Lemma full_spec : omap (fun '(k, b) => if (b : bool) then Some k else None) (imap pair (custom C)) = full.
Proof. rewrite <-idx_spec. f_equal. Qed.
Lemma idx_app l1 l2 n : idx (l1 ++ l2) n = idx l1 n ++ idx l2 (n + length l1).
Proof. revert n. induction l1 as [|[] l1 IH]; intros n; cbn; [by rewrite Nat.add_0_r|..]; rewrite IH; cbn; repeat f_equal; lia. Qed.
Lemma idx_in l n k : k ∈ idx l n -> (n <= k < n + length l)%nat.
Proof. revert n. induction l as [|[] l IH]; intros n; cbn; [by intros ?%elem_of_nil|..]; [intros [->|H%IH]%elem_of_cons|intros H%IH]; lia. Qed.
Lemma idx_filter l n : filter (.≠ n) (n :: idx l (S n)) = idx l (S n).
Proof. rewrite filter_cons, decide_False by auto. apply filter_id. intros k Hk%idx_in. lia. Qed.
(** What is known while the context is there *)
Record owns (st tmo b : Z) (held : list nat) (pool : bool) (L : outcome) (n u : nat) (X : list event -> Prop) (c : option context) (r : nat) (h : list event) : Prop := Owns {
  o_ctx : c = Some (Ctx st tmo b held pool); o_refs : r = if pool then 1%nat else 0%nat; o_live : live h = held; o_users : users h = u; o_freed : context_freed h = 0%nat; o_alloc : allocations h = 1%nat;
  o_latest : latest h = L; o_sleeps : sleeps h = n; o_tmo : timeout_of h = tmo; o_first : tmo < UINT32_MAX -> first_reading h = Some st; o_X : X h }.
Definition mild (e : event) : Prop := match e with Freed _ | FreedContext | Returned _ _ _ => True | _ => False end.
Definition keeps (X : list event -> Prop) : Prop := forall h e, mild e -> X h -> X (e :: h).
Lemma owns_stable st tmo b held pool L n u X : keeps X -> stable (owns st tmo b held pool L n u X).
Proof. intros HX c r h i o a []. split; try done. by apply HX. Qed.
Definition none (h : list event) : Prop := True.
Lemma keeps_none : keeps none.
Proof. done. Qed.
(** While the callback, or the work function, is going to be called *)
Definition accepted : view := fun c r h => exists st tmo n, owns st tmo (backoff_after n) full true (Answered (expected_return C)) n 0 none c r h.
Definition scheduled : view := fun c r h => exists st tmo n outs, owns st tmo (backoff_after n) full true (Completed outs) n 0 none c r h /\ to_retry C (Completed outs).

(** What is known of thread j *)
Definition fine (c : option context) (r : nat) (h : list event) (j : nat) (l : lst) : Prop := match l with Own w F => stable F /\ F c r h | Tail => last_by j h = Some (expected_return C) | _ => True end.
Record Inv (s : st) (ls : list lst) : Prop := {
  i_tok : (cnt own ls + inflight s + work s <= 1)%nat;
  i_wr : (cnt isw ls + length (answers (hist s)) = if started s then 1 else 0)%nat;
  i_new : started s = false -> (forall j l, ls !! j = Some l -> l = Out) /\ (inflight s + work s = 0)%nat /\ ctx s = None /\ refs s = 0%nat /\ hist s = [];
  i_own : forall j l, ls !! j = Some l -> fine (ctx s) (refs s) (hist s) j l;
  i_fl : inflight s <> 0%nat -> accepted (ctx s) (refs s) (hist s);
  i_wk : work s <> 0%nat -> scheduled (ctx s) (refs s) (hist s);
  i_end : started s = true -> (cnt own ls + inflight s + work s = 0)%nat ->
    ctx s = None /\ refs s = 0%nat /\ live (hist s) = [] /\ context_freed (hist s) = allocations (hist s) /\ (users (hist s) = 1%nat \/ exists r, answers (hist s) = [r] /\ r <> OK);
  i_err : forall r, r ∈ answers (hist s) -> r <> OK -> (cnt own ls + inflight s + work s = 0)%nat /\ users (hist s) = 0%nat;
  i_ok : all_ok C (hist s) }.
Definition blk (i : nat) (l : lst) (s : st) : Prop := False.
Definition shape (o : op) (p : prog st res) (l : lst) : Prop := l <> Out /\ (isw l = true -> exists h r p c t, o = Wrap h r p c t).
Notation runs := (runs_ok (retry_wrapper C) Inv (.= Out) blk shape).
Notation wpa := (wpa Inv blk shape).
Notation wp := (wp Inv blk shape).

(** Events that a thread i adds while it owns the context *)
Definition plain (i : nat) (e : event) : Prop := match e with Called _ _ | Returned _ _ _ => False | Attempt j _ => j = i | _ => True end.
Lemma plain_last i j es h : Forall (plain i) es -> j <> i -> last_by j (es ++ h) = last_by j h.
Proof. induction 1 as [|e es He _ IH]; intros Hj; [done|]. cbn [app last_by]. destruct e; try apply (IH Hj); cbn in He; [done|]. rewrite decide_False by congruence. auto. Qed.
Lemma plain_answers i es h : Forall (plain i) es -> answers (es ++ h) = answers h.
Proof. induction 1 as [|e es He _ IH]; [done|]. cbn [app answers]. destruct e; try done. Qed.

Lemma only_owner s ls i l j lj : Inv s ls -> ls !! i = Some l -> own l = true -> ls !! j = Some lj -> j <> i -> own lj = false.
Proof. intros HI Hi Hl Hj Hne. destruct (own lj) eqn:E; [|done]. pose proof (cnt_two own ls i j l lj (not_eq_sym Hne) Hi Hj Hl E). pose proof (i_tok _ _ HI). lia. Qed.

(** One action of the owner, who keeps the context *)
Lemma wp_own A i o Q w (F : view) X (m : M st X) k : (w = true -> exists h r p c t, o = Wrap h r p c t) ->
  (forall s, F (ctx s) (refs s) (hist s) -> all_ok C (hist s) ->
     match m s with
     | Done (x, s') => inflight s' = inflight s /\ work s' = work s /\ started s' = started s /\ (exists es, hist s' = es ++ hist s /\ Forall (plain i) es) /\ all_ok C (hist s') /\
         exists F', stable F' /\ F' (ctx s') (refs s') (hist s') /\ wpa A i o Q (k x) (Own w F')
     | _ => False
     end) -> wpa A i o Q (Act m k) (Own w F).
Proof.
  intros Hw Hm. apply wpa_act; [split; [done|]; auto|]. intros s ls Hi HI. destruct (i_own _ _ HI _ _ Hi) as [_ HF]. specialize (Hm s HF (i_ok _ _ HI)). destruct (m s) as [[x s']| |]; [|done..].
  destruct Hm as (Hfl & Hwk & Hst & (es & Hes & Hpl) & Hok & F' & HsF & HF' & Hwp). exists (Own w F'). split; [|done].
  pose proof (cnt_pos own ls i _ Hi eq_refl) as Hpos.
  assert (cnt own (<[i := Own w F']> ls) = cnt own ls) as E1 by (by eapply cnt_same). assert (cnt isw (<[i := Own w F']> ls) = cnt isw ls) as E2 by (by eapply cnt_same).
  assert (answers (hist s') = answers (hist s)) as E3 by (rewrite Hes; by eapply plain_answers).
  pose proof (i_tok _ _ HI) as Ht. split; rewrite ?E1, ?E2, ?E3, ?Hfl, ?Hwk, ?Hst.
  - done.
  - apply (i_wr _ _ HI).
  - intros Hs. by apply (proj1 (i_new _ _ HI Hs)) in Hi.
  - apply thr_upd; [done|].
    intros j l Hj Hne. pose proof (only_owner _ _ _ _ _ _ HI Hi eq_refl Hj Hne) as Ho. pose proof (i_own _ _ HI _ _ Hj) as Hl. destruct l; try done. rewrite Hes. unfold fine. by rewrite (plain_last i).
  - lia.
  - lia.
  - intros _ H. lia.
  - intros r Hr Hne. destruct (i_err _ _ HI r Hr Hne) as [H _]. lia.
  - done.
Qed.
(** The asynchronous function is called: the owner keeps the context, or gives it away. *)
Lemma wp_async A i o Q w st tmo n L k : (w = true -> exists h r p c t, o = Wrap h r p c t) -> (L = None_yet \/ to_retry C L) ->
  (forall r, r <> expected_return C -> wpa A i o Q (k r) (Own w (owns st tmo (backoff_after n) full true (Answered r) n 0 (fun h => last_by i h = Some r)))) ->
  wpa A i o Q (k (expected_return C)) (if w then Tail else Gone) ->
  body Inv blk shape i o Q (wpa A i o Q) (Act (async_function C i) k) (Own w (owns st tmo (backoff_after n) full true L n 0 none)).
Proof.
  intros Hw HL Hk Hk'. split; [split; [done|]; auto|]. intros s ls Hi HI. destruct (i_own _ _ HI _ _ Hi) as [_ HF]. pose proof HF as [O1 O2 O3 O4 O5 O6 O7 O8 O9 O10 _].
  unfold async_function. rewrite O1.
  assert (event_ok C (Attempt i (choice s)) (hist s)) as Hev.
  { cbn. split; [done|]. split; [done|]. rewrite O7. split; [done|]. by rewrite O3, full_spec. }
  pose proof (cnt_pos own ls i _ Hi eq_refl) as Hpos. pose proof (i_tok _ _ HI) as Ht.
  assert (forall j, j <> i -> last_by j (Attempt i (choice s) :: hist s) = last_by j (hist s)) as Hlast by (intros j Hj; cbn; by rewrite decide_False by done).
  destruct (choice s =? expected_return C) eqn:E.
  - apply Z.eqb_eq in E. exists (if w then Tail else Gone). rewrite E in *. split; [|done].
    assert (cnt own (<[i := if w then Tail else Gone]> ls) = 0)%nat as E1. { pose proof (cnt_upd own ls i _ (if w then Tail else Gone) Hi) as H. destruct w; cbn in H; lia. }
    assert (cnt isw (<[i := if w then Tail else Gone]> ls) = cnt isw ls)%nat as E2 by (eapply cnt_same; [done|]; by destruct w).
    split; cbn [inflight work started refs ctx hist answers]; rewrite ?E1, ?E2.
    + lia.
    + apply (i_wr _ _ HI).
    + intros Hs. by apply (proj1 (i_new _ _ HI Hs)) in Hi.
    + apply thr_upd.
      * destruct w; [|done]. cbn. by rewrite decide_True by done.
      * intros j l Hj Hne. pose proof (only_owner _ _ _ _ _ _ HI Hi eq_refl Hj Hne) as Ho. pose proof (i_own _ _ HI _ _ Hj) as Hl. destruct l; try done. unfold fine. by rewrite Hlast.
    + intros _. exists st, tmo, n. by split.
    + lia.
    + lia.
    + intros r Hr Hne. destruct (i_err _ _ HI r Hr Hne) as [H _]. lia.
    + split; [done|apply (i_ok _ _ HI)].
  - apply Z.eqb_neq in E. eexists. split; [|by apply Hk].
    set (l' := Own w _).
    assert (cnt own (<[i := l']> ls) = cnt own ls) as E1 by (by eapply cnt_same). assert (cnt isw (<[i := l']> ls) = cnt isw ls) as E2 by (by eapply cnt_same).
    split; cbn [inflight work started refs ctx hist answers]; rewrite ?E1, ?E2.
    + lia.
    + apply (i_wr _ _ HI).
    + intros Hs. by apply (proj1 (i_new _ _ HI Hs)) in Hi.
    + apply thr_upd.
      * split; [apply owns_stable; by intros ? []|]. split; try done. cbn. by rewrite decide_True by done.
      * intros j l Hj Hne. pose proof (only_owner _ _ _ _ _ _ HI Hi eq_refl Hj Hne) as Ho. pose proof (i_own _ _ HI _ _ Hj) as Hl. destruct l; try done. unfold fine. by rewrite Hlast.
    + lia.
    + lia.
    + lia.
    + intros r Hr Hne. destruct (i_err _ _ HI r Hr Hne) as [H _]. lia.
    + split; [done|apply (i_ok _ _ HI)].
Qed.
(** Scheduling a retry *)
Lemma wp_schedule A i o Q st tmo n outs X k : to_retry C (Completed outs) -> (forall c r h, owns st tmo (backoff_after n) full true (Completed outs) n 0 X c r h -> in_time h) ->
  wpa A i o Q (k true) Gone ->
  wpa A i o Q (k false) (Own false (owns st tmo (backoff_after n) full true Unscheduled n 0 none)) ->
  wpa A i o Q (Act schedule_work k) (Own false (owns st tmo (backoff_after n) full true (Completed outs) n 0 X)).
Proof.
  intros HL HX Hk Hk'. apply wpa_act; [done|]. intros s ls Hi HI. destruct (i_own _ _ HI _ _ Hi) as [_ HF]. pose proof HF as [O1 O2 O3 O4 O5 O6 O7 O8 O9 O10 O11].
  unfold schedule_work. rewrite O1. cbn [threadpool]. pose proof (cnt_pos own ls i _ Hi eq_refl) as Hpos. pose proof (i_tok _ _ HI) as Ht. destruct (choice s =? 0) eqn:E.
  - exists Gone. split; [|done].
    assert (cnt own (<[i := Gone]> ls) = 0)%nat as E1. { pose proof (cnt_upd own ls i _ Gone Hi) as H. cbn in H; lia. }
    assert (cnt isw (<[i := Gone]> ls) = cnt isw ls)%nat as E2 by (by eapply cnt_same).
    split; cbn [inflight work started refs ctx hist answers]; rewrite ?E1, ?E2.
    + lia.
    + apply (i_wr _ _ HI).
    + intros Hs. by apply (proj1 (i_new _ _ HI Hs)) in Hi.
    + apply thr_upd; [done|].
      intros j l Hj Hne. pose proof (only_owner _ _ _ _ _ _ HI Hi eq_refl Hj Hne) as Ho. pose proof (i_own _ _ HI _ _ Hj) as Hl. by destruct l.
    + lia.
    + intros _. exists st, tmo, n, outs. split; [by split|done].
    + lia.
    + intros r Hr Hne. destruct (i_err _ _ HI r Hr Hne) as [H _]. lia.
    + split; [|apply (i_ok _ _ HI)]. cbn. split; [by eapply HX|]. eauto.
  - eexists. split; [|exact Hk']. set (l' := Own false _).
    assert (cnt own (<[i := l']> ls) = cnt own ls) as E1 by (by eapply cnt_same). assert (cnt isw (<[i := l']> ls) = cnt isw ls) as E2 by (by eapply cnt_same).
    split; cbn [upd app inflight work started refs ctx hist answers]; rewrite ?E1, ?E2.
    + lia.
    + apply (i_wr _ _ HI).
    + intros Hs. by apply (proj1 (i_new _ _ HI Hs)) in Hi.
    + apply thr_upd.
      * split; [apply owns_stable, keeps_none|]. by split.
      * intros j l Hj Hne. pose proof (only_owner _ _ _ _ _ _ HI Hi eq_refl Hj Hne) as Ho. pose proof (i_own _ _ HI _ _ Hj) as Hl. by destruct l.
    + lia.
    + lia.
    + lia.
    + intros r Hr Hne. destruct (i_err _ _ HI r Hr Hne) as [H _]. lia.
    + split; [done|apply (i_ok _ _ HI)].
Qed.

(** Returning *)
Lemma last_ret j i o a h : last_by j (Returned i o a :: h) = last_by j h.
Proof. done. Qed.
Lemma accepted_stable : stable accepted.
Proof. intros c r h i o a (st & tmo & n & H). exists st, tmo, n. by apply owns_stable. Qed.
Lemma scheduled_stable : stable scheduled.
Proof. intros c r h i o a (st & tmo & n & outs & H & ?). exists st, tmo, n, outs. split; [by apply owns_stable|done]. Qed.
Lemma ret_others s ls i o a : Inv s ls -> forall j l, <[i := Out]> ls !! j = Some l ->
  fine (ctx s) (refs s) (Returned i o a :: hist s) j l.
Proof.
  intros HI. apply thr_upd; [done|].
  intros j l Hj _. pose proof (i_own _ _ HI _ _ Hj) as H. destruct l; try done. destruct H as [H1 H2]. split; [done|]. by apply H1.
Qed.
Lemma not_wrap i o h : (forall h r p c t, o <> Wrap h r p c t) -> event_ok C (Returned i o Void) h.
Proof. destruct o; try done. intros H. exfalso. by eapply H. Qed.
Lemma ret_gone i o : (forall h r p c t, o <> Wrap h r p c t) -> runs i o (Ret Void) Gone.
Proof.
  intros Ho. apply wpa_ret; [split; [done|]; done|]. intros s ls Hi HI. exists Out. split; [done|].
  assert (cnt own (<[i := Out]> ls) = cnt own ls) as E1 by (by eapply cnt_same). assert (cnt isw (<[i := Out]> ls) = cnt isw ls) as E2 by (by eapply cnt_same).
  cbn [returns retry_wrapper]. split; cbn [inflight work started refs ctx hist answers]; rewrite ?E1, ?E2.
  - apply (i_tok _ _ HI).
  - apply (i_wr _ _ HI).
  - intros Hs. by apply (proj1 (i_new _ _ HI Hs)) in Hi.
  - by apply ret_others.
  - intros H. by apply accepted_stable, (i_fl _ _ HI).
  - intros H. by apply scheduled_stable, (i_wk _ _ HI).
  - apply (i_end _ _ HI).
  - apply (i_err _ _ HI).
  - split; [by apply not_wrap|apply (i_ok _ _ HI)].
Qed.
Definition ended (u : nat) (X : list event -> Prop) : view := fun c r h => c = None /\ r = 0%nat /\ live h = [] /\ users h = u /\ context_freed h = allocations h /\ X h.
Lemma ended_stable u X : keeps X -> stable (ended u X).
Proof. intros HX c r h i o a (?&?&?&?&?&?). split_and!; try done. by apply HX. Qed.
Lemma ret_ended i o : (forall h r p c t, o <> Wrap h r p c t) -> runs i o (Ret Void) (Own false (ended 1 none)).
Proof.
  intros Ho. apply wpa_ret; [split; [done|]; done|]. intros s ls Hi HI. exists Out. split; [done|].
  assert (cnt own (<[i := Out]> ls) + 1 = cnt own ls)%nat as E1. { pose proof (cnt_upd own ls i _ Out Hi) as H. cbn in H. lia. }
  assert (cnt isw (<[i := Out]> ls) = cnt isw ls) as E2 by (by eapply cnt_same).
  destruct (i_own _ _ HI _ _ Hi) as [_ (H1&H2&H3&H4&H5&_)]. pose proof (i_tok _ _ HI) as Ht.
  cbn [returns retry_wrapper]. split; cbn [inflight work started refs ctx hist answers]; rewrite ?E2.
  - lia.
  - apply (i_wr _ _ HI).
  - intros Hs. by apply (proj1 (i_new _ _ HI Hs)) in Hi.
  - by apply ret_others.
  - lia.
  - lia.
  - intros _ _. split_and!; try done. by left.
  - intros r Hr Hne. destruct (i_err _ _ HI r Hr Hne). lia.
  - split; [by apply not_wrap|apply (i_ok _ _ HI)].
Qed.
Definition answer (i : nat) (o : op) (a : res) : list event -> Prop := fun h => event_ok C (Returned i o a) h.
Lemma ret_wrap i o r v (F : view) : (exists h r p c t, o = Wrap h r p c t) -> r <> OK -> (forall c rf h, F c rf h -> ended 0 (answer i o (Answer r v)) c rf h) -> runs i o (Ret (Answer r v)) (Own true F).
Proof.
  intros Ho Hr HF. apply wpa_ret; [split; [done|]; done|]. intros s ls Hi HI. exists Out. split; [done|].
  assert (cnt own (<[i := Out]> ls) + 1 = cnt own ls)%nat as E1. { pose proof (cnt_upd own ls i _ Out Hi) as H. cbn in H. lia. }
  assert (cnt isw (<[i := Out]> ls) + 1 = cnt isw ls)%nat as E2. { pose proof (cnt_upd isw ls i _ Out Hi) as H. cbn in H. lia. }
  destruct (i_own _ _ HI _ _ Hi) as [_ (H1&H2&H3&H4&H5&H6)%HF]. pose proof (i_tok _ _ HI) as Ht. pose proof (i_wr _ _ HI) as Hw.
  assert (started s = true) as Hst by (destruct (started s); [done|lia]). rewrite Hst in Hw. assert (answers (hist s) = []) as Ha by (destruct (answers (hist s)); [done|cbn in Hw; lia]).
  cbn [returns retry_wrapper]. split; cbn [inflight work started refs ctx hist answers users live context_freed allocations]; rewrite ?Hst.
  - lia.
  - cbn. rewrite Ha. cbn. lia.
  - done.
  - by apply ret_others.
  - lia.
  - lia.
  - intros _ _. split_and!; try done. right. exists r. by rewrite Ha.
  - intros r' Hr' Hne. split; [lia|done].
  - split; [done|apply (i_ok _ _ HI)].
Qed.
Lemma ret_tail i h r p c t : h && r && p && c = true -> runs i (Wrap h r p c t) (Ret (Answer OK (Some (expected_return C)))) Tail.
Proof.
  intros Ho. apply wpa_ret; [split; [done|]; eauto 10|]. intros s ls Hi HI. exists Out. split; [done|].
  assert (cnt own (<[i := Out]> ls) = cnt own ls)%nat as E1 by (by eapply cnt_same).
  assert (cnt isw (<[i := Out]> ls) + 1 = cnt isw ls)%nat as E2. { pose proof (cnt_upd isw ls i _ Out Hi) as H. cbn in H. lia. }
  pose proof (i_own _ _ HI _ _ Hi) as Hl. pose proof (i_tok _ _ HI) as Ht. pose proof (i_wr _ _ HI) as Hw.
  assert (started s = true) as Hst by (destruct (started s); [done|lia]). rewrite Hst in Hw. assert (answers (hist s) = []) as Ha by (destruct (answers (hist s)); [done|cbn in Hw; lia]).
  cbn [returns retry_wrapper]. split; cbn [inflight work started refs ctx hist answers users live context_freed allocations]; rewrite ?Hst, ?E1.
  - lia.
  - cbn. rewrite Ha. cbn. lia.
  - done.
  - by apply ret_others.
  - intros H. by apply accepted_stable, (i_fl _ _ HI).
  - intros H. by apply scheduled_stable, (i_wk _ _ HI).
  - intros _ H. destruct (i_end _ _ HI Hst H) as (?&?&?&?&[?|(r'&Hr'&_)]); [|by rewrite Ha in Hr']. split_and!; try done. by left.
  - intros r'. rewrite Ha. intros ->%elem_of_list_singleton. done.
  - split; [|apply (i_ok _ _ HI)]. cbn. done.
Qed.

(** Freeing *)
Ltac own := apply wp_own; [done || eauto 10|].
Lemma wp_free_fields A i o Q w st tmo b pool L n u X l m k : (w = true -> exists h r p c t, o = Wrap h r p c t) -> keeps X ->
  wpa A i o Q k (Own w (owns st tmo b [] pool L n u X)) -> wpa A i o Q (free_fields l m k) (Own w (owns st tmo b (idx l m) pool L n u X)).
Proof.
  intros Hw HX Hk. revert m. induction l as [|[] l IH]; intros m; cbn [free_fields idx]; [done| |done]. own.
  intros s [O1 O2 O3 O4 O5 O6 O7 O8 O9 O10 O11] Hok. unfold free_arg. rewrite O1. cbn [held]. rewrite decide_True by left. cbn [upd start_time timeout_ms backoff threadpool hist ctx refs inflight work started app]. rewrite idx_filter.
  split_and!; try done. { exists [Freed m]. split; [done|]. by repeat constructor. } { split; [|done]. cbn [event_ok]. rewrite O3. left. }
  eexists. split; [by apply owns_stable|]. split; [|apply IH]. split; try done. { cbn. rewrite O3. apply idx_filter. } by apply HX.
Qed.
Lemma wp_release A i o Q w st tmo b L n u X X' k : (w = true -> exists h r p c t, o = Wrap h r p c t) -> keeps X' -> forall l, (forall c r h, owns st tmo b l true L n u X c r h -> X' h) ->
  wpa A i o Q (k tt) (Own w (owns st tmo b l false L n u X')) -> wpa A i o Q (Act release_pool k) (Own w (owns st tmo b l true L n u X)).
Proof.
  intros Hw HX l HXX Hk. own. intros s HF Hok. specialize (HXX _ _ _ HF). destruct HF as [O1 O2 O3 O4 O5 O6 O7 O8 O9 O10 O11]. unfold release_pool. rewrite O1, O2. cbn. split_and!; try done. { by exists []. }
  eexists. split; [by apply owns_stable|]. by split.
Qed.
Lemma wp_free_context A i o Q w st tmo b L n u X k : (w = true -> exists h r p c t, o = Wrap h r p c t) -> keeps X ->
  wpa A i o Q (k tt) (Own w (ended u X)) -> wpa A i o Q (Act free_context k) (Own w (owns st tmo b [] false L n u X)).
Proof.
  intros Hw HX Hk. own. intros s [O1 O2 O3 O4 O5 O6 O7 O8 O9 O10 O11] Hok. unfold free_context. rewrite O1. cbn. split_and!; try done. { exists [FreedContext]. split; [done|]. by repeat constructor. }
  eexists. split; [by apply ended_stable|]. split; [|exact Hk]. split_and!; try done. { cbn. lia. } by apply HX.
Qed.
Lemma wp_finish A i o st tmo b L n X args : (forall h r p c t, o <> Wrap h r p c t) -> (forall c r h, owns st tmo b full true L n 0 X c r h -> event_ok C (User args) h) ->
  wpa A i o (fun r l => forall s ls, ls !! i = Some l -> Inv s ls -> exists l', l' = Out /\ Inv (returns (retry_wrapper C) i o r s) (<[i := l']> ls)) (finish C args) (Own false (owns st tmo b full true L n 0 X)).
Proof.
  intros Ho HX. unfold finish. own. intros s HF Hok. pose proof (HX _ _ _ HF) as Hev. destruct HF as [O1 O2 O3 O4 O5 O6 O7 O8 O9 O10 O11]. unfold user_callback. rewrite O1. cbn [upd hist ctx refs inflight work started app].
  split_and!; try done. { exists [User args]. split; [done|]. by repeat constructor. }
  exists (owns st tmo b full true L n 1 none). split; [apply owns_stable, keeps_none|]. split; [split; try done; cbn; lia|].
  apply wp_free_fields; [done|apply keeps_none|]. eapply wp_release; [done|apply keeps_none|done|]. apply wp_free_context; [done|apply keeps_none|]. apply wpa_weaken. by apply ret_ended.
Qed.
Lemma answer_keeps i o r v : keeps (answer i o (Answer r v)).
Proof.
  intros h e He. destruct o as [hd rs p c t|outs|]; [|done..]. unfold answer. cbn [event_ok]. intros [H1 H2]. split; [done|]. destruct e; try done; destruct r; try done.
  all: first [destruct H2 as [[k0 H2] ->]; split; [exists k0; by constructor 2|done] | destruct H2 as [H2 ->]; split; [by constructor 2|done]].
Qed.
Lemma wp_give_up A i o st tmo b L n need r v : (exists h r p c t, o = Wrap h r p c t) -> r <> OK ->
  wpa A i o (fun r l => forall s ls, ls !! i = Some l -> Inv s ls -> exists l', l' = Out /\ Inv (returns (retry_wrapper C) i o r s) (<[i := l']> ls)) (give_up need r v) (Own true (owns st tmo b (idx need 0) false L n 0 (answer i o (Answer r v)))).
Proof.
  intros Ho Hr. unfold give_up. apply wp_free_fields; [done|apply answer_keeps|]. apply wp_free_context; [done|apply answer_keeps|]. apply wpa_weaken. by apply ret_wrap.
Qed.

(** The loop *)
Lemma backoff_next n : next_backoff (backoff_after n) = backoff_after (S n).
Proof.
  unfold next_backoff, backoff_after, MAX_BACKOFF, u32. rewrite Nat2Z.inj_succ, Z.pow_succ_r by lia. assert (0 < 2 ^ Z.of_nat n) by (apply Z.pow_pos_nonneg; lia). rewrite Z.mod_small by (change UINT32_MOD with 4294967296; lia). destruct (_ >? _) eqn:E; lia.
Qed.
Definition read_at (i : nat) (r now : Z) : list event -> Prop := fun h => last_by i h = Some r /\ reading h = Some now.
Lemma read_at_keeps i r now : keeps (read_at i r now).
Proof. by intros h []. Qed.
Lemma last_keeps i r : keeps (fun h => last_by i h = Some r).
Proof. by intros h []. Qed.
Lemma wp_attempts i o Q w st tmo L n k : (w = true -> exists h r p c t, o = Wrap h r p c t) -> (L = None_yet \/ to_retry C L) ->
  (forall n r now, r ∈ retry_sync C -> tmo < UINT32_MAX -> tmo * 1000000 < now - st + backoff_after n * 1000000 ->
     wp i o Q (k true r) (Own w (owns st tmo (backoff_after n) full true (Answered r) n 0 (read_at i r now)))) ->
  (forall n r, r ∉ retry_sync C -> r <> expected_return C -> wp i o Q (k false r) (Own w (owns st tmo (backoff_after n) full true (Answered r) n 0 (fun h => last_by i h = Some r)))) ->
  wp i o Q (k false (expected_return C)) (if w then Tail else Gone) ->
  wp i o Q (attempts C i k) (Own w (owns st tmo (backoff_after n) full true L n 0 none)).
Proof.
  intros Hw HL Hto Hno Hyes.
  eapply wp_loop with (A := fun p l => p = attempts C i k /\ exists n L, l = Own w (owns st tmo (backoff_after n) full true L n 0 none) /\ (L = None_yet \/ to_retry C L)); [|apply wpa_again; eauto 10].
  clear n L HL. intros p l (->&n&L&->&HL). set (A := fun p l => _). rewrite (frob_eq (attempts C i k)). cbn [frob attempts].
  assert (forall r m X, (X = fun h => last_by i h = Some r) \/ (X = read_at i r m /\ m - st + backoff_after n * 1000000 <= tmo * 1000000) -> (X = (fun h => last_by i h = Some r) -> ~ tmo < UINT32_MAX) -> r ∈ retry_sync C ->
    wpa A i o Q (act* _ := sleep (backoff_after n) in act* _ := set_context (fun c => Ctx (start_time c) (timeout_ms c) (next_backoff (backoff c)) (held c) (threadpool c)) in attempts C i k)
      (Own w (owns st tmo (backoff_after n) full true (Answered r) n 0 X))) as Hgo.
  { intros r m X HX Htm Hr. own. intros s [O1 O2 O3 O4 O5 O6 O7 O8 O9 O10 O11] Hok. cbn [sleep upd hist ctx refs inflight work started app]. split_and!; try done. { exists [Slept (backoff_after n)]. split; [done|]. by repeat constructor. }
    { split; [|done]. cbn [event_ok]. rewrite O8. split; [done|]. split; [|eauto]. intros Ht. rewrite O9 in Ht. rewrite O8, O9. destruct HX as [HX|[-> HX]]; [by destruct (Htm HX)|]. destruct O11 as [_ O11]. eauto 10. }
    exists (owns st tmo (backoff_after n) full true (Answered r) (S n) 0 none). split; [apply owns_stable, keeps_none|]. split; [split; try done; cbn; lia|].
    own. clear s O1 O2 O3 O4 O5 O6 O7 O8 O9 O10 O11 Hok. intros s [O1 O2 O3 O4 O5 O6 O7 O8 O9 O10 O11] Hok. unfold set_context. rewrite O1. cbn [upd hist ctx refs inflight work started app start_time timeout_ms backoff held threadpool]. rewrite backoff_next. split_and!; try done. { by exists []. }
    exists (owns st tmo (backoff_after (S n)) full true (Answered r) (S n) 0 none). split; [by apply owns_stable, keeps_none|]. split; [by split|]. apply wpa_again. split; [done|]. exists (S n), (Answered r). split; [done|]. by right. }
  apply wp_async; [done|done| |].
  - intros r Hne. destruct (decide (r ∈ retry_sync C)) as [Hr|Hr]; [|apply wpa_weaken; auto].
    own. intros s HF Hok. unfold get_context. rewrite (o_ctx _ _ _ _ _ _ _ _ _ _ _ _ HF). split_and!; try done. { by exists []. }
    eexists. split; [apply owns_stable, last_keeps|]. split; [exact HF|]. cbn [timeout_ms backoff]. clear s HF Hok. destruct (tmo <? UINT32_MAX) eqn:E.
    + apply Z.ltb_lt in E. own. intros s [O1 O2 O3 O4 O5 O6 O7 O8 O9 O10 O11] Hok. cbn [get_elapsed upd hist ctx refs inflight work started app]. split_and!; try done. { exists [Read (choice s)]. split; [done|]. by repeat constructor. }
      exists (owns st tmo (backoff_after n) full true (Answered r) n 0 (read_at i r (choice s))). split; [apply owns_stable, read_at_keeps|].
      split. { split; try done. cbn. intros Ht. by rewrite O10. }
      unfold too_late. cbn [start_time backoff timeout_ms]. destruct (_ >? _) eqn:E'.
      * apply wpa_weaken. apply Hto; [done|done|]. lia.
      * eapply Hgo; [right; split; [done|lia]| |done]. intros HX. assert (last_by i [Attempt i r] = Some r) as H1 by (cbn; by rewrite decide_True). revert H1. change ((fun h => last_by i h = Some r) [Attempt i r] -> ~ tmo < UINT32_MAX). rewrite <-HX. intros [_ ?]. done.
    + apply Z.ltb_ge in E. eapply (Hgo r 0); [by left|lia|done].
  - destruct (decide _) as [H|H]; [done|]. by apply wpa_weaken.
Qed.
Lemma runs_retry i st tmo n outs : to_retry C (Completed outs) -> runs i Retry (do_retry C i) (Own false (owns st tmo (backoff_after n) full true (Completed outs) n 0 none)).
Proof.
  intros HL. apply wp_attempts; [done|by right|..].
  - intros n' r now Hr Ht Hl. apply wp_finish; [done|]. intros c rf h [O1 O2 O3 O4 O5 O6 O7 O8 O9 O10 [_ O11]]. cbn. split; [done|]. split; [done|]. right; left. rewrite O7. split; [done|]. split; [done|]. split; [by rewrite O9|]. rewrite O8, O9. eauto 10.
  - intros n' r Hr Hne. rewrite (proj2 (Z.eqb_neq _ _) Hne). apply wp_finish; [done|]. intros c rf h [O1 O2 O3 O4 O5 O6 O7 O8 O9 O10 O11]. cbn. split; [done|]. split; [done|]. right; right. split; [done|]. right. eauto.
  - rewrite Z.eqb_refl. by apply ret_gone.
Qed.
Lemma retries_spec outs : if retries C outs then to_retry C (Completed outs) else ~ to_retry C (Completed outs).
Proof. unfold retries, to_retry. destruct (outs !! enum C) as [v|]; [|by intros (?&?&?)]. case_bool_decide as H; [eauto|]. intros (?&[= <-]&?). done. Qed.
Lemma runs_complete i st tmo n outs : runs i (Complete outs) (on_complete C outs) (Own false (owns st tmo (backoff_after n) full true (Completed outs) n 0 none)).
Proof.
  unfold on_complete. pose proof (retries_spec outs) as Hr. destruct (retries C outs).
  2: { apply wp_finish; [done|]. intros c rf h [O1 O2 O3 O4 O5 O6 O7 O8 O9 O10 O11]. cbn. split; [done|]. split; [done|]. by left. }
  own. intros s HF Hok. unfold get_context. rewrite (o_ctx _ _ _ _ _ _ _ _ _ _ _ _ HF). split_and!; try done. { by exists []. }
  eexists. split; [apply owns_stable, keeps_none|]. split; [exact HF|]. cbn [timeout_ms backoff]. clear s HF Hok.
  assert (forall X, (forall c r h, owns st tmo (backoff_after n) full true (Completed outs) n 0 X c r h -> in_time h) ->
    runs i (Complete outs) (act* ok := schedule_work in if ok : bool then Ret Void else finish C (error_values C)) (Own false (owns st tmo (backoff_after n) full true (Completed outs) n 0 X))) as Hs.
  { intros X HX. apply wp_schedule; [done|done|by apply ret_gone|]. apply wp_finish; [done|]. intros c rf h [O1 O2 O3 O4 O5 O6 O7 O8 O9 O10 O11]. cbn. split; [done|]. split; [done|]. right; right. auto. }
  destruct (tmo <? UINT32_MAX) eqn:E.
  - apply Z.ltb_lt in E. own. intros s [O1 O2 O3 O4 O5 O6 O7 O8 O9 O10 O11] Hok. cbn [get_elapsed upd hist ctx refs inflight work started app]. split_and!; try done. { exists [Read (choice s)]. split; [done|]. by repeat constructor. }
    exists (owns st tmo (backoff_after n) full true (Completed outs) n 0 (fun h => reading h = Some (choice s))). split; [apply owns_stable; by intros ? []|]. split. { split; try done. cbn. intros Ht. by rewrite O10. }
    unfold too_late. cbn [start_time backoff timeout_ms]. destruct (_ >? _) eqn:E'.
    + apply wp_finish; [done|]. clear O1 O2 O3 O4 O5 O6 O7 O8 O9 O10 O11. intros c rf h [O1 O2 O3 O4 O5 O6 O7 O8 O9 O10 O11]. cbn. split; [done|]. split; [done|]. right; left. rewrite O7. split; [done|]. split; [done|]. split; [by rewrite O9|]. rewrite O8, O9. exists (choice s), st. split_and!; auto. lia.
    + apply Hs. clear O1 O2 O3 O4 O5 O6 O7 O8 O9 O10 O11. intros c rf h [O1 O2 O3 O4 O5 O6 O7 O8 O9 O10 O11] Ht. rewrite O9 in *. rewrite O8. exists (choice s), st. split_and!; auto. lia.
  - apply Z.ltb_ge in E. apply Hs. intros c rf h HF Ht. rewrite (o_tmo _ _ _ _ _ _ _ _ _ _ _ _ HF) in Ht. lia.
Qed.

(** The wrapper *)
Lemma idx_false need m : idx (need ++ [false]) m = idx need m.
Proof. rewrite idx_app. cbn. by rewrite app_nil_r. Qed.
Lemma wp_copy_failed A i o Q st tmo l : forall n need k,
  (forall need', wpa A i o Q (k true need') (Own true (owns st tmo 0 (idx need' 0) false None_yet 0 0 (answer i o (Answer COPY_ARG_ERROR None))))) ->
  wpa A i o Q (copy_args l n true need k) (Own true (owns st tmo 0 (idx need 0) false None_yet 0 0 (answer i o (Answer COPY_ARG_ERROR None)))).
Proof. induction l as [|[] l IH]; intros n need k Hk; cbn [copy_args]; [done|..]; rewrite <-(idx_false need); by apply IH. Qed.
Lemma wp_copy_args A i o Q st tmo l : (exists h r p c t, o = Wrap h r p c t /\ h && r && p && c = true) -> forall need k, custom C = need ++ l ->
  wpa A i o Q (k false (custom C)) (Own true (owns st tmo 0 full false None_yet 0 0 none)) ->
  (forall need', wpa A i o Q (k true need') (Own true (owns st tmo 0 (idx need' 0) false None_yet 0 0 (answer i o (Answer COPY_ARG_ERROR None))))) ->
  wpa A i o Q (copy_args l (length need) false need k) (Own true (owns st tmo 0 (idx need 0) false None_yet 0 0 none)).
Proof.
  intros (hh&rr&pp&cc&t&->&Hv). induction l as [|[] l IH]; intros need k Hc Hk Hf; cbn [copy_args].
  - rewrite app_nil_r in Hc. by rewrite <-Hc.
  - own. intros s [O1 O2 O3 O4 O5 O6 O7 O8 O9 O10 O11] Hok. unfold copy_arg. rewrite O1. destruct (choice s =? 0).
    + cbn [upd hist ctx refs inflight work started app start_time timeout_ms backoff held threadpool]. split_and!; try done. { exists [Copied (length need)]. split; [done|]. by repeat constructor. }
      { split; [|done]. cbn [event_ok]. rewrite O3. split; [intros H%idx_in; lia|]. rewrite Hc. by rewrite lookup_app_r, Nat.sub_diag by done. }
      exists (owns st tmo 0 (idx (need ++ [true]) 0) false None_yet 0 0 none). split; [apply owns_stable, keeps_none|]. rewrite idx_app. cbn [idx Nat.add]. split; [split; try done; cbn; by rewrite O3|].
      specialize (IH (need ++ [true]) k). rewrite app_length, Nat.add_1_r, idx_app in IH. cbn [idx Nat.add] in IH. apply IH; [|done..]. by rewrite <-app_assoc.
    + cbn [upd hist ctx refs inflight work started app start_time timeout_ms backoff held threadpool]. split_and!; try done. { exists [NotCopied (length need)]. split; [done|]. by repeat constructor. }
      exists (owns st tmo 0 (idx need 0) false None_yet 0 0 (answer i (Wrap hh rr pp cc t) (Answer COPY_ARG_ERROR None))). split; [apply owns_stable, answer_keeps|].
      split. { split; try done. cbn. split; [done|]. split; [|done]. exists (length need). constructor. }
      rewrite <-(idx_false need). by apply wp_copy_failed.
  - specialize (IH (need ++ [false]) k). rewrite app_length, Nat.add_1_r, idx_false in IH. apply IH; [|done..]. by rewrite <-app_assoc.
Qed.
(** At the start; after the allocation, with context c0 and first reading t0 *)
Definition fresh_view (tmo : Z) : view := fun c r h => c = None /\ r = 0%nat /\ live h = [] /\ users h = 0%nat /\ context_freed h = 0%nat /\ allocations h = 0%nat /\ latest h = None_yet /\ sleeps h = 0%nat /\ timeout_of h = tmo /\ first_reading h = None.
Definition early (tmo : Z) (st tm : Z) (t0 : option Z) : view := fun c r h => c = Some (Ctx st tm 0 [] false) /\ r = 0%nat /\ live h = [] /\ users h = 0%nat /\ context_freed h = 0%nat /\ allocations h = 1%nat /\ latest h = None_yet /\ sleeps h = 0%nat /\ timeout_of h = tmo /\ first_reading h = t0.
Lemma runs_invalid i h r p c t : h && r && p && c = false -> runs i (Wrap h r p c t) (Ret (Answer INVALID_ARGS None)) (Own true (fresh_view t)).
Proof. intros Hv. apply ret_wrap; [eauto 10|done|]. intros c0 rf hh (?&?&?&?&?&?&_). split_and!; try done; congruence. Qed.
Lemma runs_wrap i h r p c t : runs i (Wrap h r p c t) (wrapper C i h r p c t) (Own true (fresh_view t)).
Proof.
  unfold wrapper. destruct h; [|by apply runs_invalid]. destruct r; [|by apply runs_invalid]. destruct p; [|by apply runs_invalid]. destruct c; [|by apply runs_invalid]. cbn [negb].
  own. intros s (O1&O2&O3&O4&O5&O6&O7&O8&O9&O10) Hok. unfold malloc. destruct (choice s =? 0); cbn [upd hist ctx refs inflight work started app].
  { split_and!; try done. { exists [NoMemory]. split; [done|]. by repeat constructor. }
    exists (ended 0 (answer i (Wrap true true true true t) (Answer ERROR None))). split; [apply ended_stable, answer_keeps|].
    split. { split_and!; try done; [cbn; congruence|]. cbn. split; [done|]. split; [constructor|done]. } apply ret_wrap; [eauto 10|done|done]. }
  split_and!; try done. { exists [Allocated]. split; [done|]. by repeat constructor. }
  exists (early t 0 0 None). split. { intros ???????. done. } split. { split_and!; try done. cbn. congruence. } clear s O1 O2 O3 O4 O5 O6 O7 O8 O9 O10 Hok. cbn [negb].
  set (rest := Act (set_context _) _).
  assert (forall st t0, (t < UINT32_MAX -> t0 = Some st) -> runs i (Wrap true true true true t) rest (Own true (early t st 0 t0))) as Hrest.
  { intros st t0 Ht. subst rest. own. intros s (O1&O2&O3&O4&O5&O6&O7&O8&O9&O10) Hok. unfold set_context. rewrite O1. cbn [upd hist ctx refs inflight work started app start_time timeout_ms backoff held threadpool].
    split_and!; try done. { by exists []. } exists (owns st t 0 [] false None_yet 0 0 none). split; [apply owns_stable, keeps_none|]. split. { split; try done. intros H. rewrite O10. auto. }
    clear s O1 O2 O3 O4 O5 O6 O7 O8 O9 O10 Hok. eapply (wp_copy_args _ i _ _ st t (custom C)) with (need := []); [by do 5 eexists|done| |].
    2: { intros need'. apply wp_give_up; eauto 10. }
    own. intros s [O1 O2 O3 O4 O5 O6 O7 O8 O9 O10 O11] Hok. unfold init_pool. rewrite O1, O2. cbn [upd hist ctx refs inflight work started app start_time timeout_ms backoff held threadpool].
    split_and!; try done. { by exists []. } exists (owns st t 0 full true None_yet 0 0 none). split; [apply owns_stable, keeps_none|]. split; [by split|].
    clear s O1 O2 O3 O4 O5 O6 O7 O8 O9 O10 O11 Hok. own. intros s [O1 O2 O3 O4 O5 O6 O7 O8 O9 O10 O11] Hok. unfold set_context. rewrite O1. cbn [upd hist ctx refs inflight work started app start_time timeout_ms backoff held threadpool].
    split_and!; try done. { by exists []. } exists (owns st t (backoff_after 0) full true None_yet 0 0 none). split; [apply owns_stable, keeps_none|]. split; [by split|].
    clear s O1 O2 O3 O4 O5 O6 O7 O8 O9 O10 O11 Hok. apply wp_attempts; [eauto 10|by left|..].
    - intros n r now Hr Htm Hl. eapply wp_release; [eauto 10|apply answer_keeps| |apply wp_give_up; eauto 10].
      intros c rf h [O1 O2 O3 O4 O5 O6 O7 O8 O9 O10 [O11 O12]]. cbn. split; [done|]. split; [done|]. split; [eauto|]. split; [by rewrite O9|]. rewrite O8, O9. eauto 10.
    - intros n r Hr Hne. rewrite (proj2 (Z.eqb_neq _ _) Hne). eapply wp_release; [eauto 10|apply answer_keeps| |apply wp_give_up; eauto 10].
      intros c rf h [O1 O2 O3 O4 O5 O6 O7 O8 O9 O10 O11]. cbn. split; [done|]. split; [done|]. eauto.
    - rewrite Z.eqb_refl. by apply ret_tail. }
  destruct (t <? UINT32_MAX) eqn:E; [|apply Z.ltb_ge in E; apply Hrest; lia].
  own. intros s (O1&O2&O3&O4&O5&O6&O7&O8&O9&O10) Hok. cbn [get_elapsed upd hist ctx refs inflight work started app]. split_and!; try done. { exists [Read (choice s)]. split; [done|]. by repeat constructor. }
  exists (early t 0 0 (Some (choice s))). split. { intros ???????. done. } split. { split_and!; try done. cbn. by rewrite O10. }
  generalize (choice s) as t0. intros t0. clear s O1 O2 O3 O4 O5 O6 O7 O8 O9 O10 Hok. own. intros s (O1&O2&O3&O4&O5&O6&O7&O8&O9&O10) Hok. unfold set_context. rewrite O1. cbn [upd hist ctx refs inflight work started app start_time timeout_ms backoff held threadpool].
  split_and!; try done. { by exists []. } exists (early t t0 0 (Some t0)). split. { intros ???????. done. } split; [by split_and!|]. by apply Hrest.
Qed.

(** All reachable states *)
Lemma call_ok i o s s' ls l : ls !! i = Some l -> l = Out -> Inv s ls -> calls (retry_wrapper C) i o s = Some s' -> exists l', Inv s' (<[i := l']> ls) /\ runs i o (code (retry_wrapper C) i o) l'.
Proof.
  intros Hi -> HI Hc. pose proof (i_tok _ _ HI) as Ht. pose proof (i_wr _ _ HI) as Hw.
  assert (forall F, cnt own (<[i := Own true F]> ls) = S (cnt own ls)) as E1. { intros F. pose proof (cnt_upd own ls i _ (Own true F) Hi) as H. cbn in H. lia. }
  assert (forall F, cnt isw (<[i := Own true F]> ls) = S (cnt isw ls)) as E2. { intros F. pose proof (cnt_upd isw ls i _ (Own true F) Hi) as H. cbn in H. lia. }
  assert (forall F, cnt own (<[i := Own false F]> ls) = S (cnt own ls)) as E3. { intros F. pose proof (cnt_upd own ls i _ (Own false F) Hi) as H. cbn in H. lia. }
  assert (forall F, cnt isw (<[i := Own false F]> ls) = cnt isw ls) as E4. { intros F. by eapply cnt_same. }
  assert (forall j, j <> i -> last_by j (Called i o :: hist s) = last_by j (hist s)) as Hlast by (intros j Hj; cbn; by rewrite decide_False by done).
  cbn in Hc. destruct o as [h r p c t|outs|]; cbn [code retry_wrapper].
  - destruct (started s) eqn:Hst; [done|]. case_bool_decide as Htm; [|done]. injection Hc as <-. exists (Own true (fresh_view t)). split; [|apply runs_wrap].
    destruct (i_new _ _ HI Hst) as (N1&N2&N3&N4&N5). assert (cnt own ls = 0)%nat as E0. { destruct (cnt own ls) eqn:E; [done|]. destruct (cnt_ex own ls) as (j&lj&Hj&Hb); [lia|]. by rewrite (N1 _ _ Hj) in Hb. }
    split; cbn [inflight work started refs ctx hist answers]; rewrite ?E1, ?E2.
    + lia.
    + rewrite <-Hw. done.
    + done.
    + apply thr_upd; [|intros j l Hj _; by rewrite (N1 _ _ Hj)]. split; [by intros ???????|]. rewrite N5. done.
    + lia.
    + lia.
    + lia.
    + rewrite N5. by intros ? ?%elem_of_nil.
    + rewrite N5. done.
  - destruct (inflight s) as [|n] eqn:Hfl; [done|]. injection Hc as <-. destruct (i_fl _ _ HI) as (st & tmo & k & [O1 O2 O3 O4 O5 O6 O7 O8 O9 O10 O11]); [lia|].
    eexists (Own false _). split; [|by apply (runs_complete i st tmo k outs)].
    split; cbn [inflight work started refs ctx hist answers]; rewrite ?E3, ?E4.
    + lia.
    + done.
    + intros Hs. destruct (i_new _ _ HI Hs) as (_&?&_). lia.
    + apply thr_upd; [split; [apply owns_stable, keeps_none|by split]|]. intros j l Hj Hne. assert (own l = false) as Ho. { destruct (own l) eqn:E; [|done]. pose proof (cnt_pos own ls j _ Hj E). lia. }
      pose proof (i_own _ _ HI _ _ Hj) as Hl. destruct l; try done. unfold fine. by rewrite Hlast.
    + lia.
    + lia.
    + lia.
    + intros r Hr Hne. destruct (i_err _ _ HI r Hr Hne). lia.
    + split; [done|apply (i_ok _ _ HI)].
  - destruct (work s) as [|n] eqn:Hfl; [done|]. injection Hc as <-. destruct (i_wk _ _ HI) as (st & tmo & k & outs & [O1 O2 O3 O4 O5 O6 O7 O8 O9 O10 O11] & Hr); [lia|].
    eexists (Own false _). split; [|by apply (runs_retry i st tmo k outs)].
    split; cbn [inflight work started refs ctx hist answers]; rewrite ?E3, ?E4.
    + lia.
    + done.
    + intros Hs. destruct (i_new _ _ HI Hs) as (_&?&_). lia.
    + apply thr_upd; [split; [apply owns_stable, keeps_none|by split]|]. intros j l Hj Hne. assert (own l = false) as Ho. { destruct (own l) eqn:E; [|done]. pose proof (cnt_pos own ls j _ Hj E). lia. }
      pose proof (i_own _ _ HI _ _ Hj) as Hl. destruct l; try done. unfold fine. by rewrite Hlast.
    + lia.
    + lia.
    + lia.
    + intros r Hr' Hne. destruct (i_err _ _ HI r Hr' Hne). lia.
    + split; [done|apply (i_ok _ _ HI)].
Qed.
Lemma env_ok s s' ls : Inv s ls -> env (retry_wrapper C) s s' -> Inv s' ls.
Proof. intros [] [c ->]. by split. Qed.
Lemma inv_start n : Inv start (replicate n Out).
Proof.
  split; cbn; rewrite ?cnt_replicate by done; try done; try lia.
  - intros _. split; [|done]. by intros j l [-> _]%lookup_replicate.
  - by intros j l [-> _]%lookup_replicate.
Qed.
Theorem reach_inv n c : reachable (retry_wrapper C) start n c -> conf_ok (retry_wrapper C) Inv (.= Out) blk shape c.
Proof. eapply reach_ok; [exact call_ok|exact env_ok|done|apply inv_start]. Qed.
End proofs.
