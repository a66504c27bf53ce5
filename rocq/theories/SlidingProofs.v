From Coq Require Import SpecFloat.
From Verif Require Import Common Block BlockFacts SlidingModel SlidingSpec.
Local Open Scope Z_scope.
Local Open Scope cmonad_scope.

(** Slot i of the ring holds the latest value added at a position congruent to i. *)
Definition ring_ok (w : nat) (vs cs : list Z) : Prop :=
  length cs = w /\ forall i v, (length vs - w <= i)%nat -> vs !! i = Some v -> cs !! (i mod w)%nat = Some v.
Definition rep (w : nat) (vs : list Z) (h : sliding) : Prop :=
  (0 < w)%nat /\ Z.of_nat w < 2 ^ 31 /\
  window_count h = Z.of_nat w /\ next_available_slot h = Z.of_nat (length vs) /\
  current_sum h = sum_list (window w vs) /\ current_count h = Z.of_nat (length (window w vs)) /\
  current_average h = average (window w vs) /\ ring_ok w vs (counts h).

Lemma sum_app l l' : sum_list (l ++ l') = sum_list l + sum_list l'.
Proof. induction l; simpl in *; unfold sum_list in *; lia. Qed.
Lemma window_length w vs : length (window w vs) = Nat.min w (length vs).
Proof. unfold window. rewrite drop_length. lia. Qed.
Lemma window_small w vs v : (length vs < w)%nat -> window w (vs ++ [v]) = window w vs ++ [v].
Proof.
  intros H. unfold window. rewrite app_length. simpl.
  replace (length vs + 1 - w)%nat with 0%nat by lia. replace (length vs - w)%nat with 0%nat by lia. by rewrite !drop_0.
Qed.
Lemma window_big w vs v : (0 < w)%nat -> (w <= length vs)%nat ->
  exists old, vs !! (length vs - w)%nat = Some old /\ window w vs ++ [v] = old :: window w (vs ++ [v]).
Proof.
  intros Hw H. destruct (lookup_lt_is_Some_2 vs (length vs - w)) as [old Ho]; [lia|]. exists old. split; [done|].
  unfold window. rewrite app_length. simpl. replace (length vs + 1 - w)%nat with (S (length vs - w)) by lia.
  rewrite (drop_S _ _ _ Ho). simpl. f_equal. rewrite drop_app_le by lia. done.
Qed.

Lemma mod_window w i j : (0 < w)%nat -> (i < j)%nat -> (j < i + w)%nat -> (i mod w <> j mod w)%nat.
Proof.
  intros Hw H1 H2 E. pose proof (Nat.div_mod i w ltac:(lia)). pose proof (Nat.div_mod j w ltac:(lia)).
  assert (i / w < j / w)%nat by nia. nia.
Qed.
Lemma ring_add w vs cs v : (0 < w)%nat -> ring_ok w vs cs -> ring_ok w (vs ++ [v]) (<[(length vs mod w)%nat := v]> cs).
Proof.
  intros Hw [Hl Hr]. split; [by rewrite insert_length|]. intros i u Hi Hv. rewrite app_length in Hi. simpl in Hi.
  pose proof (Nat.mod_upper_bound (length vs) w ltac:(lia)).
  destruct (decide (i = length vs)) as [->|Hne].
  - rewrite lookup_app_r, Nat.sub_diag in Hv by lia. simpl in Hv. simplify_eq. rewrite list_lookup_insert by lia. done.
  - assert (i < length vs)%nat as Hlt.
    { apply lookup_lt_Some in Hv. rewrite app_length in Hv. simpl in Hv. lia. }
    rewrite lookup_app_l in Hv by lia. rewrite list_lookup_insert_ne.
    + apply Hr; [lia|done].
    + intros E. eapply (mod_window w i (length vs)); try lia. 
Qed.

Lemma rem_nat a w : (0 < w)%nat -> Z.to_nat (Z.rem (Z.of_nat a) (Z.of_nat w)) = (a mod w)%nat.
Proof. intros H. rewrite Z.rem_mod_nonneg by lia. rewrite <-Nat2Z.inj_mod. lia. Qed.
Lemma in64 v : in_int64 v = true <-> - 2 ^ 63 <= v < 2 ^ 63.
Proof. unfold in_int64. lia. Qed.
Lemma in32 v : in_int32 v = true <-> - 2 ^ 31 <= v < 2 ^ 31.
Proof. unfold in_int32. lia. Qed.

Lemma average_cons x l : average (x :: l) = double_div (to_double (sum_list (x :: l))) (to_double (Z.of_nat (length (x :: l)))).
Proof. done. Qed.
Lemma average_snoc l v : average (l ++ [v]) = double_div (to_double (sum_list (l ++ [v]))) (to_double (Z.of_nat (length (l ++ [v])))).
Proof. destruct l; apply average_cons. Qed.

(** The step, with the exact condition under which it is defined. *)
Lemma add_step w vs h v : rep w vs h ->
  let defined := - 2 ^ 63 <= sum_list (window w (vs ++ [v])) < 2 ^ 63 /\
     (forall old, (w <= length vs)%nat -> vs !! (length vs - w)%nat = Some old -> - 2 ^ 63 <= v - old < 2 ^ 63) /\
     Z.of_nat (length vs) + 1 < 2 ^ 31 in
  (defined -> exists h', sliding_window_average_by_count_add v (Some h) = Done (0, Some h') /\ rep w (vs ++ [v]) h') /\
  (~ defined -> sliding_window_average_by_count_add v (Some h) = Undef).
Proof.
  intros (Hw&Hw31&Hwc&Hn&Hs&Hc&Ha&Hr). intros defined. subst defined.
  destruct (lookup_lt_is_Some_2 (counts h) (length vs mod w)) as [slot Hslot].
  { destruct Hr as [-> _]. apply Nat.mod_upper_bound. lia. }
  assert (Hat : forall s : option sliding, at_ (counts h) (Z.to_nat (Z.rem (next_available_slot h) (window_count h))) s = Done (slot, s)).
  { intros s. unfold at_. rewrite Hwc, Hn, rem_nat by lia. by rewrite Hslot. }
  assert (Hrun : sliding_window_average_by_count_add v (Some h) =
     (let* (sum, cnt) :=
      (if window_count h <=? next_available_slot h then
         let* d := int64 (v - slot) in
         let* sum := int64 (current_sum h + d) in
         ret (sum, current_count h)
       else
         let* sum := int64 (current_sum h + v) in
         let* cnt := int64 (current_count h + 1) in
         ret (sum, cnt)) in
    let* next := int32 (next_available_slot h + 1) in
    put (Some (Sliding (window_count h) sum cnt next (double_div (to_double sum) (to_double cnt)) (<[(length vs mod w)%nat := v]> (counts h)))) ;;;
    ret 0) (Some h)).
  { unfold sliding_window_average_by_count_add. unfold bind at 1, get. cbv beta iota. unfold bind at 1. rewrite Hat.
    rewrite Hwc, Hn, rem_nat by lia. done. }
  rewrite Hrun. clear Hrun Hat.
  assert (Hcap : forall (k : Z), (if in_int32 (Z.of_nat (length vs) + 1) then k else k) = k) by (intros; by destruct in_int32).
  unfold int64, int32. rewrite Hn, Hwc.
  destruct (Z.leb_spec (Z.of_nat w) (Z.of_nat (length vs))) as [Hle|Hlt].
  - destruct (window_big w vs v) as (old&Ho&Hwin); [lia..|].
    assert (slot = old) as ->.
    { destruct Hr as [Hl Hr]. assert (Hx := Hr (length vs - w)%nat old ltac:(lia) Ho).
      assert (((length vs - w) mod w) = (length vs mod w))%nat as E.
      { replace (length vs) with ((length vs - w) + 1 * w)%nat at 2 by lia. rewrite Nat.mod_add by lia. done. }
      rewrite E in Hx. congruence. }
    assert (Hsum : current_sum h + (v - old) = sum_list (window w (vs ++ [v]))).
    { apply (f_equal sum_list) in Hwin. rewrite sum_app in Hwin. rewrite Hs. simpl in Hwin.
      change (sum_list [v]) with (v + 0) in Hwin. unfold sum_list in *. simpl in *. lia. }
    assert (Hlen : length (window w (vs ++ [v])) = length (window w vs)).
    { rewrite !window_length, app_length. simpl. lia. }
    split.
    + intros (D1&D2&D3). specialize (D2 old ltac:(lia) Ho).
      unfold bind, ret, put. rewrite (proj2 (in64 (v - old))) by done. rewrite Hsum.
      rewrite (proj2 (in64 _)) by done. rewrite (proj2 (in32 _)) by lia. eexists. split; [done|].
      destruct (window w (vs ++ [v])) as [|x l] eqn:E; [simpl in Hlen; rewrite window_length in Hlen; lia|].
      unfold rep. simpl window_count. simpl next_available_slot. simpl current_sum. simpl current_count. simpl current_average. simpl counts.
      rewrite E. rewrite average_cons, app_length. simpl length in Hlen |- *. rewrite Hc, <-Hlen.
      repeat split; try done; try lia; apply ring_add; done.
    + intros Hnd. unfold bind, ret, undef. destruct (in_int64 (v - old)) eqn:E1; [|done]. rewrite Hsum.
      destruct (in_int64 (sum_list _)) eqn:E2; [|done]. destruct (in_int32 _) eqn:E3; [|done]. exfalso. apply Hnd.
      apply in64 in E1, E2. apply in32 in E3. split; [done|]. split; [|lia]. intros old' _ Ho'. simplify_eq. done.
  - assert (Hwin := window_small w vs v ltac:(lia)).
    assert (Hsum : current_sum h + v = sum_list (window w (vs ++ [v]))).
    { rewrite Hwin, sum_app, Hs. unfold sum_list. simpl. lia. }
    assert (Hcnt : current_count h + 1 = Z.of_nat (length (window w (vs ++ [v])))).
    { rewrite Hwin, app_length, Hc. simpl. lia. }
    assert (Hc64 : in_int64 (current_count h + 1) = true).
    { apply in64. rewrite Hcnt, window_length. lia. }
    split.
    + intros (D1&D2&D3). unfold bind, ret, put. rewrite Hc64, Hsum. rewrite (proj2 (in64 _)) by done. rewrite (proj2 (in32 _)) by lia.
      eexists. split; [done|]. unfold rep. simpl window_count. simpl next_available_slot. simpl current_sum. simpl current_count. simpl current_average. simpl counts.
      rewrite Hcnt, app_length. rewrite Hwin, average_snoc. simpl length. repeat split; try done; try lia; apply ring_add; done.
    + intros Hnd. unfold bind, ret, undef. rewrite Hc64, Hsum.
      destruct (in_int64 (sum_list _)) eqn:E2; [|done]. destruct (in_int32 _) eqn:E3; [|done]. exfalso. apply Hnd.
      apply in64 in E2. apply in32 in E3. split; [done|]. split; [|lia]. intros; lia.
Qed.

Lemma create_rep a l wc h : sliding_window_average_by_count_create a l wc = Some h -> wc < 2 ^ 31 -> 1 <= wc /\ rep (Z.to_nat wc) [] h.
Proof.
  unfold sliding_window_average_by_count_create. repeat case_match; intros; simplify_eq. split; [lia|].
  unfold rep; simpl. repeat split; try lia; try done. by rewrite replicate_length.
Qed.
Lemma adds_app vs v s : adds (vs ++ [v]) s = (adds vs ;;; adds [v]) s.
Proof.
  revert s. induction vs as [|x vs IH]; intros s; [done|]. cbn [app adds]. unfold bind in *.
  destruct (sliding_window_average_by_count_add x s) as [[? s']| |]; [apply IH|done..].
Qed.
Lemma no_overflow_app w vs v : no_overflow w (vs ++ [v]) ->
  no_overflow w vs /\ - 2 ^ 63 <= sum_list (window w (vs ++ [v])) < 2 ^ 63 /\
     (forall old, (w <= length vs)%nat -> vs !! (length vs - w)%nat = Some old -> - 2 ^ 63 <= v - old < 2 ^ 63) /\
     Z.of_nat (length vs) + 1 < 2 ^ 31.
Proof.
  intros [H1 H2]. rewrite app_length in H1. simpl in H1.
  assert (Hv : (vs ++ [v]) !! length vs = Some v) by (by apply list_lookup_middle).
  split.
  - split; [lia|]. intros i x Hx. assert (Hi := lookup_lt_Some _ _ _ Hx).
    specialize (H2 i x). rewrite lookup_app_l in H2 by lia. destruct (H2 Hx) as [A B]. rewrite take_app_le in A by lia. split; [done|].
    intros old Hw Ho. apply (B old Hw). rewrite lookup_app_l by lia. done.
  - destruct (H2 _ _ Hv) as [A B]. rewrite take_ge in A by (rewrite app_length; simpl; lia). split; [done|]. split; [|lia].
    intros old Hw Ho. apply (B old Hw). apply lookup_app_l_Some. done.
Qed.
Lemma adds_ok w vs h : rep w [] h -> no_overflow w vs -> exists h', adds vs (Some h) = Done (tt, Some h') /\ rep w vs h'.
Proof.
  intros Hr. induction vs as [|v vs IH] using rev_ind; intros Hn; [by exists h|].
  apply no_overflow_app in Hn as (Hn&D). destruct (IH Hn) as (h1&Hadds&Hr1).
  destruct (add_step w vs h1 v Hr1) as [Hs _]. destruct (Hs D) as (h2&Hs2&Hr2). exists h2. split; [|done].
  rewrite adds_app. unfold bind at 1. rewrite Hadds. simpl. unfold bind. rewrite Hs2. done.
Qed.

Theorem average_ok wc h vs : sliding_window_average_by_count_create true true wc = Some h -> wc < 2 ^ 31 -> no_overflow (Z.to_nat wc) vs ->
  exists h', adds vs (Some h) = Done (tt, Some h') /\
    sliding_window_average_by_count_get (Some h') true = Some (average (window (Z.to_nat wc) vs)) /\
    forall v r, no_overflow (Z.to_nat wc) (vs ++ [v]) -> sliding_window_average_by_count_add v (Some h') = r ->
      exists h'', r = Done (0, Some h'').
Proof.
  intros Hc Hb Hn. apply create_rep in Hc as [Hw Hr]; [|done]. destruct (adds_ok _ _ _ Hr Hn) as (h'&Ha&Hr').
  exists h'. split; [done|]. split.
  - destruct Hr' as (_&_&_&_&_&_&Ha'&_). simpl. by rewrite Ha'.
  - intros v r Hn' <-. destruct (add_step _ _ _ v Hr') as [Hs _]. apply no_overflow_app in Hn' as [_ D].
    destruct (Hs D) as (h''&->&_). eauto.
Qed.
Theorem overflow_undef wc h vs v : sliding_window_average_by_count_create true true wc = Some h -> wc < 2 ^ 31 ->
  no_overflow (Z.to_nat wc) vs -> ~ no_overflow (Z.to_nat wc) (vs ++ [v]) -> adds (vs ++ [v]) (Some h) = Undef.
Proof.
  intros Hc Hb Hn Hnn. apply create_rep in Hc as [Hw Hr]; [|done]. destruct (adds_ok _ _ _ Hr Hn) as (h'&Ha&Hr').
  rewrite adds_app. unfold bind at 1. rewrite Ha. simpl. unfold bind.
  destruct (add_step _ _ _ v Hr') as [_ ->]; [done|]. intros (D1&D2&D3). apply Hnn.
  destruct Hn as [N1 N2]. split; [rewrite app_length; simpl; lia|].
  intros i x Hx. destruct (decide (i = length vs)) as [->|Hne].
  - rewrite list_lookup_middle in Hx by done. simplify_eq. rewrite take_ge by (rewrite app_length; simpl; lia). split; [done|].
    intros old Hwl Ho. rewrite lookup_app_l in Ho by lia. by apply (D2 old).
  - assert (i < length vs)%nat. { apply lookup_lt_Some in Hx. rewrite app_length in Hx. simpl in Hx. lia. }
    rewrite lookup_app_l in Hx by lia. destruct (N2 i x Hx) as [A B]. rewrite take_app_le by lia. split; [done|].
    intros old Hwl Ho. rewrite lookup_app_l in Ho by lia. by apply (B old).
Qed.

Lemma sum_zeros n : sum_list (replicate n 0) = 0.
Proof. induction n; simpl; [done|]. unfold sum_list in *. simpl. lia. Qed.
Lemma zeros_no_overflow w n : Z.of_nat n < 2 ^ 31 -> no_overflow w (replicate n 0).
Proof.
  intros H. split; [by rewrite replicate_length|]. intros i v Hv. apply lookup_replicate in Hv as [-> Hi]. split.
  - unfold window. rewrite take_replicate, drop_replicate, sum_zeros. lia.
  - intros old Hw Ho. apply lookup_replicate in Ho as [-> _]. lia.
Qed.
Theorem counter_overflow wc h : sliding_window_average_by_count_create true true wc = Some h -> wc < 2 ^ 31 ->
  exists vs, Forall (fun v => v = 0) vs /\ Z.of_nat (length vs) = 2 ^ 31 /\ adds vs (Some h) = Undef.
Proof.
  intros Hc Hb. exists (replicate (Z.to_nat (2 ^ 31 - 1)) 0 ++ [0]). split; [|split].
  - apply Forall_app. split; [|by constructor]. by apply Forall_replicate.
  - rewrite app_length, replicate_length. simpl length. lia.
  - eapply overflow_undef; [done..| |].
    + apply zeros_no_overflow. lia.
    + intros [H _]. rewrite app_length, replicate_length in H. simpl length in H. lia.
Qed.
