(** Proofs about SlcModel.v. *)
From Coq Require Import SpecFloat.
From Verif Require Import Common Block Prog Conc ConcLists SlidingModel SlidingSpec SlidingProofs SlcModel SlcSpec RefsModel RefsProofs.
Local Open Scope Z_scope.

(** Arithmetic. *)
Definition small (w : nat) (v : Z) : Prop := Z.abs v * Z.of_nat w < 2 ^ 62.
Lemma sum_small w l : Forall (small w) l -> Z.abs (sum_list l) * Z.of_nat w <= Z.of_nat (length l) * 2 ^ 62.
Proof.
  induction 1 as [|x l Hx Hl IH]; [done|]. change (sum_list (x :: l)) with (x + sum_list l). cbn [length]. rewrite Nat2Z.inj_succ.
  pose proof (Z.abs_triangle x (sum_list l)) as Ht. unfold small in Hx. revert Hx IH Ht. generalize (sum_list l), (2 ^ 62). intros a P Hx IH Ht.
  assert (Z.abs (x + a) * Z.of_nat w <= (Z.abs x + Z.abs a) * Z.of_nat w) as H1 by (apply Z.mul_le_mono_nonneg_r; lia). lia.
Qed.
Lemma Forall_window w vs (P : Z -> Prop) : Forall P vs -> Forall P (window w vs).
Proof. intros H. unfold window. by apply Forall_drop. Qed.
Lemma small_step w vs h v : rep w vs h -> Forall (small w) (vs ++ [v]) -> Z.of_nat (length vs) + 1 < 2 ^ 31 ->
  exists h', sliding_window_average_by_count_add v (Some h) = Done (0, Some h') /\ rep w (vs ++ [v]) h'.
Proof.
  intros Hr Hs Hn. assert (0 < w)%nat as Hw by (by destruct Hr). destruct (add_step w vs h v Hr) as [H _]. apply H. clear H.
  assert (forall x, x ∈ vs ++ [v] -> Z.abs x < 2 ^ 62) as Hx.
  { intros x Hx. rewrite Forall_forall in Hs. specialize (Hs _ Hx). unfold small in Hs. revert Hs. generalize (2 ^ 62). nia. }
  split_and!.
  - pose proof (sum_small w _ (Forall_window w _ _ Hs)) as H1. rewrite window_length in H1.
    assert (Z.abs (sum_list (window w (vs ++ [v]))) <= 2 ^ 62) as H2; [|lia].
    revert H1. generalize (sum_list (window w (vs ++ [v]))). intros a H1. assert (Z.of_nat (w `min` length (vs ++ [v])) * 2 ^ 62 <= Z.of_nat w * 2 ^ 62) by lia. nia.
  - pose proof (sum_small w _ (Forall_window w _ _ Hs)) as H1. rewrite window_length in H1.
    assert (Z.abs (sum_list (window w (vs ++ [v]))) <= 2 ^ 62) as H2; [|lia].
    revert H1. generalize (sum_list (window w (vs ++ [v]))). intros a H1. assert (Z.of_nat (w `min` length (vs ++ [v])) * 2 ^ 62 <= Z.of_nat w * 2 ^ 62) by lia. nia.
  - intros old _ Ho. apply elem_of_list_lookup_2 in Ho. pose proof (Hx old ltac:(rewrite elem_of_app; auto)). pose proof (Hx v ltac:(rewrite elem_of_app, elem_of_list_singleton; auto)). lia.
  - lia.
Qed.
(** What a defined addition says about its computations. *)
Lemma add_inv v h h' : sliding_window_average_by_count_add v (Some h) = Done (0, Some h') ->
  let k := Z.rem (next_available_slot h) (window_count h) in
  exists old, counts h !! Z.to_nat k = Some old /\ in_int32 (next_available_slot h + 1) = true /\
  if window_count h <=? next_available_slot h then
    in_int64 (v - old) = true /\ in_int64 (current_sum h + (v - old)) = true /\
    h' = set_average (double_div (to_double (current_sum h + (v - old))) (to_double (current_count h))) (set_slot (next_available_slot h + 1) (set_counts (<[Z.to_nat k := v]> (counts h)) (set_sum (current_sum h + (v - old)) h)))
  else
    in_int64 (current_sum h + v) = true /\ in_int64 (current_count h + 1) = true /\
    h' = set_average (double_div (to_double (current_sum h + v)) (to_double (current_count h + 1))) (set_slot (next_available_slot h + 1) (set_count (current_count h + 1) (set_counts (<[Z.to_nat k := v]> (counts h)) (set_sum (current_sum h + v) h)))).
Proof.
  intros H k. unfold sliding_window_average_by_count_add, bind, get, at_, int64, int32, ret, undef, put in H. fold k in H.
  destruct (counts h !! Z.to_nat k) as [old|]; [|done]. exists old. split; [done|].
  destruct (window_count h <=? next_available_slot h); repeat (case_match; simplify_eq); destruct h; done.
Qed.

Section wc.
Context (W : nat) (HW : (0 < W)%nat).
Notation L := (sliding_window (Z.of_nat W)).

Inductive pc := Out | Nl | A0 (v : Z) | Wr (v : Z) (vs : list Z) (w : sliding) | A9 (v : Z) | G0 | G1 | G2 (a : spec_float) | G9 (a : spec_float) | X0 | X1.
Definition holdsX (l : pc) : bool := match l with Wr _ _ _ => true | _ => false end.
Definition holdsS (l : pc) : bool := match l with G1 | G2 _ => true | _ => false end.
Definition pending (l : pc) : bool := match l with A0 _ | Wr _ _ _ => true | _ => false end.
Definition closes (l : pc) : bool := match l with X0 | X1 => true | _ => false end.
Definition tinv (s : slc) (i : nat) (l : pc) : Prop :=
  match l with
  | Nl | G0 | G1 => added_by i (hist s) = []
  | A0 v => small W v /\ added_by i (hist s) = []
  | Wr v vs w => small W v /\ added_by i (hist s) = [] /\ added (hist s) = vs /\ win s = w
  | A9 v => added_by i (hist s) = [v]
  | G2 a | G9 a => added_by i (hist s) = [] /\ average_meanwhile W i a (hist s)
  | _ => True
  end.
Fixpoint all_ok (h : list event) : Prop := match h with [] => True | e :: h => event_ok W e h /\ all_ok h end.
Record InvA (s : slc) (ls : list pc) : Prop := {
  a_alive : dead s = false;
  a_writer : forall i, writer s = Some i <-> exists l, ls !! i = Some l /\ holdsX l = true;
  a_readers : forall i, i ∈ readers s <-> exists l, ls !! i = Some l /\ holdsS l = true;
  a_lock : writer s <> None -> readers s = [];
  a_rep : writer s = None -> rep W (added (hist s)) (win s);
  a_small : Forall (small W) (added (hist s));
  a_num : (length (added (hist s)) + cnt pending ls <= asked (hist s))%nat;
  a_max : Z.of_nat (asked (hist s)) < 2 ^ 31;
  a_thr : forall i l, ls !! i = Some l -> tinv s i l /\ closes l = false;
  a_run : forall i l, ls !! i = Some l -> l <> Out -> i ∈ running (hist s);
  a_ev : all_ok (hist s);
}.
Record InvB (s : slc) (ls : list pc) : Prop := {
  b_ev : all_ok (hist s);
  b_thr : exists i l, ls !! i = Some l /\ (forall j l', ls !! j = Some l' -> j <> i -> l' = Out) /\
    match l with
    | X0 => dead s = false /\ writer s = None /\ readers s = []
    | X1 | Out => dead s = true
    | _ => False
    end;
}.
Definition Inv (s : slc) (ls : list pc) : Prop := if given_up (hist s) then InvB s ls else InvA s ls.
Definition blk (i : nat) (l : pc) (s : slc) : Prop := l <> Out /\ closes l = false /\ holdsX l = false /\ holdsS l = false /\ (writer s <> None \/ readers s <> []).
Definition shape (o : op) (p : prog slc res) (l : pc) : Prop := True.
Notation runs := (runs_ok L Inv (.= Out) blk shape).

Definition actor (e : event) : nat := match e with Called i _ | Returned i _ _ | Acts i _ => i end.
Lemma by_other j e h : j <> actor e -> added_by j (e :: h) = added_by j h.
Proof. destruct e; cbn; intros; try done; by rewrite decide_False. Qed.
Lemma meanwhile_other j a e h : j <> actor e -> average_meanwhile W j a h -> average_meanwhile W j a (e :: h).
Proof.
  intros Hj (l1&l2&->&Hc&->). exists (e :: l1), l2. split_and!; [done| |done]. intros o [<-|Ho]%elem_of_cons; [by apply Hj|by eapply Hc].
Qed.
Lemma tinv_other s e j l : j <> actor e -> holdsX l = false \/ added (e :: hist s) = added (hist s) -> tinv s j l -> tinv (set_hist (e :: hist s) s) j l.
Proof.
  intros Hj Hx. destruct l; cbn [tinv set_hist hist win]; rewrite ?(by_other _ _ _ Hj); try done.
  - intros (?&?&?&?). split_and!; try done. destruct Hx as [|Hx]; [done|]. by rewrite Hx.
  - intros [? ?]. split; [done|]. by apply meanwhile_other.
  - intros [? ?]. split; [done|]. by apply meanwhile_other.
Qed.
Lemma all_ok_at pre e h : all_ok (pre ++ e :: h) -> event_ok W e h.
Proof. induction pre as [|x pre IH]; cbn; intros [? ?]; auto. Qed.
Lemma inv_A s ls i l : Inv s ls -> ls !! i = Some l -> l <> Out -> closes l = false -> InvA s ls /\ given_up (hist s) = false.
Proof.
  unfold Inv. destruct (given_up (hist s)); [|done]. intros [_ (j&lj&Hj&Ho&Hm)] Hi Hl Hc. exfalso. destruct (decide (i = j)) as [->|Hne].
  - rewrite Hi in Hj. simplify_eq. by destruct lj.
  - by apply Hl, (Ho i).
Qed.
Lemma inv_back s ls : given_up (hist s) = false -> InvA s ls -> Inv s ls.
Proof. unfold Inv. by intros ->. Qed.
Lemma others s ls i v vs w j lj : InvA s ls -> ls !! i = Some (Wr v vs w) -> ls !! j = Some lj -> j <> i -> holdsX lj = false.
Proof.
  intros HA Hi Hj Hne. destruct (holdsX lj) eqn:E; [|done]. exfalso. assert (writer s = Some i) as H1 by (apply (a_writer _ _ HA); eauto). assert (writer s = Some j) as H2 by (apply (a_writer _ _ HA); eauto). congruence.
Qed.

(** The lock. *)
Lemma lock_move s ls i l l' w r :
  InvA s ls -> ls !! i = Some l -> pending l = pending l' -> closes l' = false -> l <> Out -> tinv s i l' ->
  (forall j, w = Some j <-> if decide (j = i) then holdsX l' = true else writer s = Some j) ->
  (forall j, j ∈ r <-> if decide (j = i) then holdsS l' = true else j ∈ readers s) -> (w <> None -> r = []) -> (w = None -> rep W (added (hist s)) (win s)) ->
  InvA (set_lock w r s) (<[i := l']> ls).
Proof.
  intros [] Hi Hp Hc Ho Ht Hw Hr Hwr Hrep. split; cbn [set_lock dead writer readers win hist]; auto.
  - intros j. rewrite Hw, (who_upd holdsX ls i l l' j Hi). case_decide; [done|]. apply a_writer0.
  - intros j. rewrite Hr, (who_upd holdsS ls i l l' j Hi). case_decide; [done|]. apply a_readers0.
  - by rewrite (cnt_same pending ls i l l' Hi Hp).
  - apply thr_upd; [done|]. intros j lj Hj _. by apply a_thr0.
  - apply (thr_upd (fun j lj => lj <> Out -> j ∈ running (hist s))); [intros _; by eapply a_run0|]. intros j lj Hj _. by apply a_run0.
Qed.
Lemma win_move s ls i v vs w w' : InvA s ls -> ls !! i = Some (Wr v vs w) -> InvA (set_win w' s) (<[i := Wr v vs w']> ls).
Proof.
  intros HA Hi. pose proof HA as []. split; cbn [set_win dead writer readers win hist]; auto.
  - intros j. by rewrite (who_same holdsX ls i _ (Wr v vs w') j Hi eq_refl).
  - intros j. by rewrite (who_same holdsS ls i _ (Wr v vs w') j Hi eq_refl).
  - intros Hw. exfalso. assert (writer s = Some i) as H1 by (apply a_writer0; eauto). congruence.
  - by rewrite (cnt_same pending ls i _ (Wr v vs w') Hi eq_refl).
  - destruct (a_thr0 _ _ Hi) as [(?&?&?&?) _]. apply thr_upd; [by split_and!|]. intros j lj Hj Hne. destruct (a_thr0 _ _ Hj) as [Ht ?]. split; [|done].
    pose proof (others _ _ _ _ _ _ _ _ HA Hi Hj Hne) as Hx. by destruct lj.
  - apply (thr_upd (fun j lj => lj <> Out -> j ∈ running (hist s))); [intros _; by eapply a_run0|]. intros j lj Hj _. by apply a_run0.
Qed.
Lemma release_move s ls i v vs w : InvA s ls -> ls !! i = Some (Wr v vs w) -> rep W (vs ++ [v]) w ->
  InvA (set_hist (Acts i v :: hist s) (set_lock None (readers s) s)) (<[i := A9 v]> ls).
Proof.
  intros HA Hi Hrep. pose proof HA as []. destruct (a_thr0 _ _ Hi) as [(Hsm&Hby&Hvs&Hwin) _]. assert (writer s = Some i) as Hwr by (apply a_writer0; eauto).
  split; cbn [set_lock set_hist dead writer readers win hist]; auto.
  - intros j. rewrite (who_upd holdsX ls i _ (A9 v) j Hi). case_decide; [done|]. split; [done|]. intros (lj&Hj&Hx). by rewrite (others _ _ _ _ _ _ _ _ HA Hi Hj) in Hx.
  - intros j. by rewrite (who_same holdsS ls i _ (A9 v) j Hi eq_refl).
  - intros _. cbn [added]. by rewrite Hvs, Hwin.
  - cbn [added]. apply Forall_app. split; [done|by repeat constructor].
  - cbn [added asked]. rewrite app_length. cbn [length]. pose proof (cnt_upd pending ls i _ (A9 v) Hi) as H. cbn in H. lia.
  - apply thr_upd; [cbn; rewrite decide_True by done; by rewrite Hby|]. intros j lj Hj Hne. destruct (a_thr0 _ _ Hj) as [Ht ?]. split; [|done].
    pose proof (others _ _ _ _ _ _ _ _ HA Hi Hj Hne) as Hx. apply (tinv_other (set_lock None (readers s) s)); [done|by left|]. by destruct lj.
  - cbn [running]. apply (thr_upd (fun j lj => lj <> Out -> j ∈ running (hist s))); [intros _; by eapply a_run0|]. intros j lj Hj _. by apply a_run0.
  - cbn. done.
Qed.

Lemma stay s ls i l : ls !! i = Some l -> Inv s ls -> Inv s (<[i := l]> ls).
Proof. intros Hi. by rewrite list_insert_id. Qed.
Section steps.
Context (i : nat) (o : op) (Q : res -> pc -> Prop).
Notation wp' := (wpa Inv blk shape (fun _ _ => False) i o Q).
Context (v : Z) (vs : list Z).
Lemma calc_step r x k l : r = Some x -> wp' (k x) l -> wp' (Act (calc r) k) l.
Proof. intros -> H. apply wpa_act; [done|]. intros s ls Hl HI. cbn. exists l. split; [by apply stay|done]. Qed.
Lemma in_x s ls w : Inv s ls -> ls !! i = Some (Wr v vs w) -> InvA s ls /\ given_up (hist s) = false /\ may_write i s = true /\ may_read i s = true /\ win s = w /\ writer s = Some i.
Proof.
  intros HI Hi. destruct (inv_A _ _ _ _ HI Hi ltac:(done) ltac:(done)) as [HA Hg]. assert (writer s = Some i) as Hw by (apply (a_writer _ _ HA); eauto).
  assert (may_write i s = true) as Hm by (by apply bool_decide_eq_true). unfold may_read. rewrite Hm. destruct (a_thr _ _ HA _ _ Hi) as [(?&?&?&?) _]. done.
Qed.
Lemma rd_step {A} (f : sliding -> A) k w : wp' (k (f w)) (Wr v vs w) -> wp' (Act (rd i f) k) (Wr v vs w).
Proof.
  intros H. apply wpa_act; [done|]. intros s ls Hl HI. destruct (in_x _ _ _ HI Hl) as (HA&Hg&Hm&Hr&Hw&_). unfold rd. rewrite Hr, Hw. eexists. split; [by apply stay|done].
Qed.
Lemma wr_step f k w : wp' (k tt) (Wr v vs (f w)) -> wp' (Act (wr i f) k) (Wr v vs w).
Proof.
  intros H. apply wpa_act; [done|]. intros s ls Hl HI. destruct (in_x _ _ _ HI Hl) as (HA&Hg&Hm&Hr&Hw&_). unfold wr. rewrite Hm, Hw. eexists. split; [|done].
  apply inv_back; [done|]. by eapply win_move.
Qed.
Lemma rd_at_step n x k w : 0 <= n -> counts w !! Z.to_nat n = Some x -> wp' (k x) (Wr v vs w) -> wp' (Act (rd_at i n) k) (Wr v vs w).
Proof.
  intros Hn Hx H. apply wpa_act; [done|]. intros s ls Hl HI. destruct (in_x _ _ _ HI Hl) as (HA&Hg&Hm&Hr&Hw&_). unfold rd_at. rewrite Hr, Hw, Hx. rewrite (proj2 (Z.leb_le 0 n) Hn). cbn. eexists. split; [by apply stay|done].
Qed.
Lemma wr_at_step n x k w : 0 <= n -> n < Z.of_nat (length (counts w)) -> wp' (k tt) (Wr v vs (set_counts (<[Z.to_nat n := x]> (counts w)) w)) -> wp' (Act (wr_at i n x) k) (Wr v vs w).
Proof.
  intros Hn Hx H. apply wpa_act; [done|]. intros s ls Hl HI. destruct (in_x _ _ _ HI Hl) as (HA&Hg&Hm&Hr&Hw&_). unfold wr_at. rewrite Hm, Hw. rewrite (proj2 (Z.leb_le 0 n) Hn), (proj2 (Z.ltb_lt _ _) Hx). cbn.
  eexists. split; [|done]. apply inv_back; [done|]. by eapply win_move.
Qed.
Lemma release_step k w : rep W (vs ++ [v]) w -> wp' (k tt) (A9 v) -> wp' (Act (release_exclusive i v) k) (Wr v vs w).
Proof.
  intros Hrep H. apply wpa_act; [done|]. intros s ls Hl HI. destruct (in_x _ _ _ HI Hl) as (HA&Hg&Hm&Hr&Hw&Hwr). unfold release_exclusive. rewrite decide_True by done. eexists. split; [|done].
  apply inv_back; [done|]. by eapply release_move.
Qed.
End steps.

(** Answers. *)
Definition answers (o : op) (r : res) (l : pc) : Prop :=
  match l with
  | Nl => (exists v, o = Add false v /\ r = Int 1) \/ (exists d p, o = Get d p /\ d && p = false /\ r = Avg None)
  | A9 v => o = Add true v /\ r = Int 0
  | G9 a => o = Get true true /\ r = Avg (Some a)
  | _ => False
  end.
Lemma ret_ok i o r l : answers o r l -> runs i o (Ret r) l.
Proof.
  intros Ha. apply wpa_ret; [done|]. intros s ls Hl HI. exists Out. split; [done|]. assert (l <> Out /\ closes l = false /\ pending l = false /\ holdsX l = false /\ holdsS l = false) as (Ho&Hc&Hp&Hx&Hs) by (by destruct l).
  destruct (inv_A _ _ _ _ HI Hl Ho Hc) as [HA Hg]. apply inv_back; [done|]. pose proof HA as []. destruct (a_thr0 _ _ Hl) as [Ht _].
  split; cbn [returns L set_hist dead writer readers win hist added asked running]; auto.
  - intros j. rewrite (who_same holdsX ls i l Out j Hl Hx). apply a_writer0.
  - intros j. rewrite (who_same holdsS ls i l Out j Hl Hs). apply a_readers0.
  - by rewrite (cnt_same pending ls i l Out Hl Hp).
  - apply thr_upd; [done|]. intros j lj Hj Hne. destruct (a_thr0 _ _ Hj) as [Htj ?]. split; [|done]. apply tinv_other; [done|by right|done].
  - apply (thr_upd (fun j lj => lj <> Out -> j ∈ filter (.≠ i) (running (hist s)))); [done|]. intros j lj Hj Hne Hlj. apply elem_of_list_filter. split; [done|]. by eapply a_run0.
  - cbn. split; [|done]. destruct l; try done; cbn [answers tinv] in *.
    + destruct Ha as [(v&->&->)|(d&p&->&Hdp&->)]; cbn; [done|]. by rewrite Hdp.
    + destruct Ha as [-> ->]. by cbn.
    + destruct Ha as [-> ->]. cbn. destruct Ht. eauto.
Qed.
(** The calls. *)
Lemma add_ok i v : runs i (Add true v) (add i true v) (A0 v).
Proof.
  apply wpa_act; [done|]. intros s ls Hl HI. destruct (inv_A _ _ _ _ HI Hl ltac:(done) ltac:(done)) as [HA Hg]. unfold acquire_exclusive. rewrite (a_alive _ _ HA).
  destruct (writer s) as [j|] eqn:Ew; [unfold blk; rewrite Ew; split_and!; [done..|by left]|]. destruct (readers s) as [|j js] eqn:Er; [|unfold blk; rewrite Er; split_and!; [done..|by right]].
  destruct (a_thr _ _ HA _ _ Hl) as [(Hsm&Hby) _]. pose proof (a_rep _ _ HA Ew) as Hrep. set (vs := added (hist s)) in *. set (w := win s) in *.
  destruct (small_step W vs w v Hrep) as (h'&Hadd&Hrep').
  { apply Forall_app. split; [apply (a_small _ _ HA)|by repeat constructor]. }
  { pose proof (a_num _ _ HA). pose proof (a_max _ _ HA). pose proof (cnt_pos pending ls i _ Hl eq_refl). fold vs in H. lia. }
  exists (Wr v vs w). split.
  { apply inv_back; [done|]. apply (lock_move s ls i (A0 v)); auto; try done.
    - intros j. case_decide; [subst; naive_solver|]. rewrite Ew. naive_solver.
    - intros j. case_decide; [subst; cbn; split; [by intros ?%elem_of_nil|done]|]. by rewrite Er. }
  apply add_inv in Hadd as (old&Hold&H32&Hadd). destruct Hrep as (_&_&Hwc&Hslot&_&_&_&Hlen&_).
  set (k := Z.rem (next_available_slot w) (window_count w)) in *.
  assert (0 <= k) as Hk by (unfold k; rewrite Hwc, Hslot; apply Z.rem_nonneg; lia).
  assert (k < Z.of_nat (length (counts w))) as Hk2 by (apply lookup_lt_Some in Hold; lia).
  apply rd_step, rd_step. apply (calc_step _ _ _ _ k). { unfold rem. rewrite (proj2 (Z.eqb_neq _ _)); [done|]. rewrite Hwc. lia. }
  apply rd_step, rd_step. destruct (window_count w <=? next_available_slot w).
  - destruct Hadd as (H1&H2&Hh'). apply (rd_at_step _ _ _ _ _ _ old); [done..|]. apply (calc_step _ _ _ _ (v - old)); [unfold i64; by rewrite H1|].
    apply rd_step. apply (calc_step _ _ _ _ (current_sum w + (v - old))); [unfold i64; by rewrite H2|]. apply wr_step. apply wr_at_step; [done..|].
    apply rd_step. apply (calc_step _ _ _ _ (next_available_slot w + 1)); [unfold i32; cbn; by rewrite H32|]. apply wr_step. apply rd_step, rd_step. apply wr_step. apply release_step.
    + subst h'. exact Hrep'.
    + apply ret_ok. done.
  - destruct Hadd as (H1&H2&Hh'). 
    apply rd_step. apply (calc_step _ _ _ _ (current_sum w + v)); [unfold i64; by rewrite H1|]. apply wr_step. apply wr_at_step; [done..|].
    apply rd_step. apply (calc_step _ _ _ _ (current_count w + 1)); [unfold i64; cbn; by rewrite H2|]. apply wr_step.
    apply rd_step. apply (calc_step _ _ _ _ (next_available_slot w + 1)); [unfold i32; cbn; by rewrite H32|]. apply wr_step. apply rd_step, rd_step. apply wr_step. apply release_step.
    + subst h'. exact Hrep'.
    + apply ret_ok. done.
Qed.
Lemma get_ok i : runs i (Get true true) (get_average i true true) G0.
Proof.
  apply wpa_act; [done|]. intros s ls Hl HI. destruct (inv_A _ _ _ _ HI Hl ltac:(done) ltac:(done)) as [HA Hg]. unfold acquire_shared. rewrite (a_alive _ _ HA).
  destruct (writer s) as [j|] eqn:Ew; [unfold blk; rewrite Ew; split_and!; [done..|by left]|]. destruct (a_thr _ _ HA _ _ Hl) as [Hby _]. exists G1. split.
  { apply inv_back; [done|]. apply (lock_move s ls i G0); auto; try done.
    - intros j. case_decide; [subst; naive_solver|]. by rewrite Ew.
    - intros j. rewrite elem_of_cons. case_decide; [subst; naive_solver|]. naive_solver.
    - intros _. by apply (a_rep _ _ HA). }
  clear s ls Hl HI HA Hg Ew Hby. apply wpa_act; [done|]. intros s ls Hl HI. destruct (inv_A _ _ _ _ HI Hl ltac:(done) ltac:(done)) as [HA Hg].
  assert (i ∈ readers s) as Hr by (apply (a_readers _ _ HA); eauto). assert (writer s = None) as Ew.
  { destruct (writer s) eqn:E; [|done]. rewrite (a_lock _ _ HA) in Hr; [by apply elem_of_nil in Hr|by rewrite E]. }
  unfold rd, may_read. rewrite (bool_decide_eq_true_2 _ Hr), orb_true_r. destruct (a_thr _ _ HA _ _ Hl) as [Hby _]. exists (G2 (current_average (win s))). split.
  { apply inv_back; [done|]. assert (InvA (set_lock (writer s) (readers s) s) (<[i := G2 (current_average (win s))]> ls)) as H; [|by destruct s]. apply (lock_move s ls i G1); auto; try done.
    - split; [done|]. exists [], (hist s). split_and!; [done|by intros ? ?%elem_of_nil|]. by destruct (a_rep _ _ HA Ew) as (_&_&_&_&_&_&->&_).
    - intros j. case_decide; [subst; rewrite Ew; done|done].
    - intros j. case_decide; [subst; done|done].
    - apply (a_rep _ _ HA). }
  generalize (current_average (win s)). intros a. clear s ls Hl HI HA Hg Ew Hby Hr. apply wpa_act; [done|]. intros s ls Hl HI. destruct (inv_A _ _ _ _ HI Hl ltac:(done) ltac:(done)) as [HA Hg].
  assert (i ∈ readers s) as Hr by (apply (a_readers _ _ HA); eauto). assert (writer s = None) as Ew.
  { destruct (writer s) eqn:E; [|done]. rewrite (a_lock _ _ HA) in Hr; [by apply elem_of_nil in Hr|by rewrite E]. }
  unfold release_shared. rewrite decide_True by done. destruct (a_thr _ _ HA _ _ Hl) as [Ht _]. exists (G9 a). split.
  { apply inv_back; [done|]. apply (lock_move s ls i (G2 a)); auto; try done.
    - intros j. rewrite Ew. case_decide; [subst; done|done].
    - intros j. rewrite elem_of_list_filter. case_decide; [subst; naive_solver|]. naive_solver.
    - apply (a_rep _ _ HA). }
  apply ret_ok. done.
Qed.
Lemma dispose_ok i : runs i Dispose dispose_window X0.
Proof.
  apply wpa_act; [done|]. intros s ls Hl HI. unfold Inv in HI. destruct (given_up (hist s)) eqn:Hg; [|by destruct (a_thr _ _ HI _ _ Hl)].
  destruct HI as [Hev (j&lj&Hj&Ho&Hm)]. assert (j = i) as ->. { destruct (decide (j = i)) as [|Hne]; [done|]. by specialize (Ho _ _ Hl (not_eq_sym Hne)). }
  rewrite Hl in Hj. simplify_eq. destruct Hm as (Hd&Hw&Hr). unfold srw_destroy. rewrite Hd, Hw, Hr. exists X1. split.
  { unfold Inv. cbn [hist]. rewrite Hg. split; [done|]. exists i, X1. split_and!; [by eapply upd_at| |done]. intros k lk Hk Hne. rewrite list_lookup_insert_ne in Hk by done. by eapply Ho. }
  clear s ls Hl Hg Hev Ho Hd Hw Hr. apply wpa_ret; [done|]. intros s ls Hl HI. exists Out. split; [done|]. unfold Inv in *. cbn [returns L set_hist hist given_up].
  destruct (given_up (hist s)) eqn:Hg; [|by destruct (a_thr _ _ HI _ _ Hl)].
  destruct HI as [Hev (j&lj&Hj&Ho&Hm)]. assert (j = i) as ->. { destruct (decide (j = i)) as [|Hne]; [done|]. by specialize (Ho _ _ Hl (not_eq_sym Hne)). }
  rewrite Hl in Hj. simplify_eq. split; [done|]. exists i, Out. split_and!; [by eapply upd_at| |done]. intros k lk Hk Hne. rewrite list_lookup_insert_ne in Hk by done. by eapply Ho.
Qed.
Lemma call_hist i o s s' : calls L i o s = Some s' -> may_call (Z.of_nat W) o (hist s) = true /\ s' = set_hist (Called i o :: hist s) s.
Proof. cbn. destruct (may_call _ o (hist s)); [|done]. by intros [= <-]. Qed.
Definition start (o : op) : pc := match o with Add true v => A0 v | Get true true => G0 | Dispose => X0 | _ => Nl end.
Lemma call_ok i o s s' ls l : ls !! i = Some l -> l = Out -> Inv s ls -> calls L i o s = Some s' -> exists l', Inv s' (<[i := l']> ls) /\ runs i o (code L i o) l'.
Proof.
  intros Hi -> HI [Hm ->]%call_hist. exists (start o). unfold may_call in Hm. apply andb_true_iff in Hm as [Hg%negb_true_iff Hm]. unfold Inv in HI. rewrite Hg in HI. pose proof HI as HA. split.
  - assert (o = Dispose \/ o <> Dispose) as [->|Ho] by (destruct o; [by right..|by left]).
    { unfold Inv. cbn [hist set_hist given_up start]. apply bool_decide_eq_true in Hm. assert (forall j l, ls !! j = Some l -> l = Out) as Hout.
      { intros j lj Hj. assert (lj = Out \/ lj <> Out) as [|Hne] by (destruct lj; (by left) || by right); [done|]. pose proof (a_run _ _ HA _ _ Hj Hne) as H. rewrite Hm in H. by apply elem_of_nil in H. }
      split; [cbn; split; [done|apply (a_ev _ _ HA)]|]. exists i, X0. cbn [set_hist dead writer readers]. split_and!; [by eapply upd_at| |apply (a_alive _ _ HA)| |].
      - intros j lj Hj Hne. rewrite list_lookup_insert_ne in Hj by done. by eapply Hout.
      - destruct (writer s) as [j|] eqn:E; [|done]. apply (a_writer _ _ HA) in E as (lj&Hj&Hx). by rewrite (Hout _ _ Hj) in Hx.
      - destruct (readers s) as [|j js] eqn:E; [done|]. assert (j ∈ readers s) as Hr by (rewrite E; by left). apply (a_readers _ _ HA) in Hr as (lj&Hj&Hx). by rewrite (Hout _ _ Hj) in Hx. }
    apply inv_back; [cbn [hist set_hist given_up]; by destruct o|]. pose proof HA as []. 
    assert (holdsX (start o) = false /\ holdsS (start o) = false) as [Hx Hs] by (by destruct o as [[]|[] []|]).
    split; cbn [set_hist dead writer readers win hist added running]; auto.
    + intros j. rewrite (who_same holdsX ls i Out (start o) j Hi (eq_sym Hx)). apply a_writer0.
    + intros j. rewrite (who_same holdsS ls i Out (start o) j Hi (eq_sym Hs)). apply a_readers0.
    + pose proof (cnt_upd pending ls i Out (start o) Hi) as H. destruct o as [[] v|[] []|]; cbn in H |- *; try done; lia.
    + destruct o as [[] v|[] []|]; cbn in Hm |- *; try done. apply andb_true_iff in Hm as [_ Hm]. apply Z.ltb_lt in Hm. lia.
    + apply thr_upd.
      * split; [|by destruct o as [[]|[] []|]]. destruct o as [[] v|[] []|]; cbn; rewrite ?decide_True by done; try done. split; [|done]. unfold small. apply andb_true_iff in Hm as [Hm _]. by apply Z.ltb_lt in Hm.
      * intros j lj Hj Hne. destruct (a_thr0 _ _ Hj). split; [|done]. apply tinv_other; [done|by right|done].
    + apply (thr_upd (fun j lj => lj <> Out -> j ∈ i :: running (hist s))); [intros _; by left|]. intros j lj Hj _ Hne. right. by eapply a_run0.
    + done.
  - destruct o as [[] v|[] []|]; cbn [code L start].
    + apply add_ok.
    + apply ret_ok. left. eauto.
    + apply get_ok.
    + apply ret_ok. right. by exists true, false.
    + apply ret_ok. right. by exists false, true.
    + apply ret_ok. right. by exists false, false.
    + apply dispose_ok.
Qed.

Section n.
Context (n : nat) (w0 : sliding) (Hw0 : rep W [] w0).
Notation reach_b c := (reachable L (created w0) n c).
Lemma reach c : reach_b c -> conf_ok L Inv (.= Out) blk shape c.
Proof.
  intros Hr. eapply (reach_ok L Inv (.= Out) blk shape) in Hr; [exact Hr| | |done|].
  - intros ? ? ? ? ? ?. apply call_ok.
  - intros ? ? ? _ [].
  - assert (forall i l, replicate n Out !! i = Some l -> l = Out) as Hout by (by intros i l [? _]%lookup_replicate).
    apply inv_back; [done|]. split; cbn [created dead writer readers win hist added]; auto.
    + intros i. split; [done|]. intros (l&->%Hout&?). done.
    + intros i. split; [by intros ?%elem_of_nil|]. intros (l&->%Hout&?). done.
    + rewrite cnt_replicate by done. cbn. lia.
    + done.
    + by intros i l ->%Hout.
    + by intros i l ->%Hout.
    + done.
Qed.
Lemma no_crash c i : reach_b c -> ~ crashed c i.
Proof. intros Hr. by eapply ok_no_crash, reach. Qed.
Lemma history c later e before : reach_b c -> hist c.1 = later ++ e :: before -> event_ok W e before.
Proof. intros Hr Hh. destruct (reach _ Hr) as (ls&_&HI&_). assert (all_ok (hist c.1)) as H. { unfold Inv in HI. destruct (given_up (hist c.1)); [apply (b_ev _ _ HI)|apply (a_ev _ _ HI)]. } rewrite Hh in H. by eapply all_ok_at. Qed.
Lemma no_deadlock c i : reach_b c -> blocked c i -> exists (j : nat) (o : op) (p : prog slc res), c.2 !! j = Some (Running o p) /\ ~ blocked c j.
Proof.
  intros Hr Hb. destruct (reach _ Hr) as (ls&Hlen&HI&Hts). destruct (ok_blocked _ _ _ _ _ _ _ _ Hlen HI Hts Hb) as (l&Hl&Ho&Hc&_&_&Hlk). destruct (inv_A _ _ _ _ HI Hl Ho Hc) as [HA _].
  assert (exists j lj, ls !! j = Some lj /\ (holdsX lj = true \/ holdsS lj = true)) as (j&lj&Hj&Hlj).
  { destruct Hlk as [Hw|Hr'].
    - destruct (writer c.1) as [j|] eqn:E; [|done]. apply (a_writer _ _ HA) in E as (lj&?&?). eauto.
    - destruct (readers c.1) as [|j js] eqn:E; [done|]. assert (j ∈ readers c.1) as Hj by (rewrite E; by left). apply (a_readers _ _ HA) in Hj as (lj&?&?). eauto. }
  assert (exists t, c.2 !! j = Some t) as [t Ht] by (apply lookup_lt_is_Some_2; rewrite <-Hlen; by eapply lookup_lt_Some).
  pose proof (Hts _ _ _ Ht Hj) as Hok. destruct t as [|o p]; [cbn in Hok; subst lj; cbn in Hlj; destruct Hlj; done|]. exists j, o, p. split; [done|]. intros Hbj.
  destruct (ok_blocked _ _ _ _ _ _ _ _ Hlen HI Hts Hbj) as (l'&Hl'&_&_&Hx&Hs&_). rewrite Hj in Hl'. simplify_eq. destruct Hlj; congruence.
Qed.
(** When no call is running: the fields and the lock. *)
Lemma at_rest c : reach_b c -> (forall j t, c.2 !! j = Some t -> t = Idle) -> dead c.1 = given_up (hist c.1) /\ (given_up (hist c.1) = false -> current_average (win c.1) = average (window W (added (hist c.1)))).
Proof.
  intros Hr Hid. destruct (reach _ Hr) as (ls&Hlen&HI&Hts). assert (forall j l, ls !! j = Some l -> l = Out) as Hout.
  { intros j l Hj. assert (exists t, c.2 !! j = Some t) as [t Ht] by (apply lookup_lt_is_Some_2; rewrite <-Hlen; by eapply lookup_lt_Some). pose proof (Hts _ _ _ Ht Hj) as Hok. by rewrite (Hid _ _ Ht) in Hok. }
  unfold Inv in HI. destruct (given_up (hist c.1)).
  - destruct HI as [_ (i&l&Hi&_&Hm)]. by rewrite (Hout _ _ Hi) in Hm.
  - split; [apply (a_alive _ _ HI)|]. intros _. assert (writer c.1 = None) as Ew. { destruct (writer c.1) as [j|] eqn:E; [|done]. apply (a_writer _ _ HI) in E as (lj&Hj&Hx). by rewrite (Hout _ _ Hj) in Hx. }
    by destruct (a_rep _ _ HI Ew) as (_&_&_&_&_&_&->&_).
Qed.
End n.
End wc.
