(** Lists, for RcsProps. *)
From Verif Require Import Common Block BlockFacts CMem CMemFacts Prog RcsModel RcsSpec.
From Verif Require RcsProofs.

Lemma first_at {A} (P : A -> Prop) (l1 l2 : list A) c1 c2 r1 r2 : l1 ++ c1 :: r1 = l2 ++ c2 :: r2 -> Forall (fun x => ~ P x) l1 -> Forall (fun x => ~ P x) l2 -> P c1 -> P c2 -> l1 = l2 /\ c1 = c2 /\ r1 = r2.
Proof.
  revert l2. induction l1 as [|x l1 IH]; intros [|y l2] E F1 F2 H1 H2; simpl in E; injection E as E1 E2.
  - done.
  - subst. by inversion F2.
  - subst. by inversion F1.
  - subst. inversion F1; inversion F2; subst. destruct (IH l2) as (->&->&->); auto.
Qed.
Lemma not_in {A} (c : A) l : c ∉ l -> Forall (fun x => ~ x = c) l.
Proof. rewrite Forall_forall. intros H x Hx ->. done. Qed.

Lemma occurrences_app d s t : occurrences d (s ++ t) = occurrences d s + occurrences d t.
Proof. unfold occurrences. by rewrite filter_app, app_length. Qed.
Lemma occurrences_cons d s : occurrences d (d :: s) = S (occurrences d s).
Proof. unfold occurrences. by rewrite filter_cons, decide_True. Qed.
Lemma occurrences_none d s : d ∉ s -> occurrences d s = 0.
Proof. unfold occurrences. induction s as [|c s IH]; [done|]. rewrite not_elem_of_cons. intros [H1 H2]. rewrite filter_cons, decide_False by congruence. auto. Qed.
Lemma parts_join d s parts : parts_of d s parts -> join d parts = s /\ Forall (fun part => d ∉ part) parts /\ length parts = S (occurrences d s).
Proof.
  intros (f&others&->&->&H). split; [done|]. split; [done|]. simpl. f_equal. inversion H as [|? ? Hf Ho]; subst. rewrite occurrences_app, (occurrences_none d f) by done. clear -Ho. induction Ho as [|part others Hp _ IH]; [done|].
  rewrite fmap_cons, concat_cons, <-app_comm_cons, occurrences_cons, occurrences_app, (occurrences_none d part) by done. simpl in *. by rewrite IH.
Qed.

Lemma replicate_no_zero n : no_zero (replicate n 44%Z).
Proof. unfold no_zero. intros H. apply elem_of_replicate in H as [H _]. discriminate H. Qed.
Lemma replicate_in n : 0 < n -> 44%Z ∈ replicate n 44%Z.
Proof. intros H. apply elem_of_replicate. split; [done|]. by destruct n; [apply Nat.lt_irrefl in H|]. Qed.
Lemma mod_pos : 0 < Z.to_nat UINT32_MOD.
Proof. apply (Z2Nat.inj_lt 0 UINT32_MOD); [done|done|reflexivity]. Qed.
Lemma occurrences_replicate n : occurrences 44 (replicate n 44%Z) = n.
Proof. induction n as [|n IH]; [done|]. cbn [replicate]. by rewrite occurrences_cons, IH. Qed.
Lemma replicate_occurrences : Z.of_nat (occurrences 44 (replicate (Z.to_nat UINT32_MOD) 44%Z)) = UINT32_MOD.
Proof. rewrite occurrences_replicate. apply Z2Nat.id. discriminate. Qed.
Lemma num_splits_mod s d : num_splits s d = u32 (Z.of_nat (occurrences d s) + 1).
Proof.
  unfold num_splits. assert (forall n, u32 (foldl (fun n c => if decide (c = d) then u32 (n + 1) else n) n s + 1) = u32 (n + Z.of_nat (occurrences d s) + 1)) as H; [|by rewrite H].
  induction s as [|c s IH]; intros n; simpl; [unfold occurrences; simpl; f_equal; lia|]. rewrite IH. unfold occurrences. rewrite filter_cons. destruct (decide (c = d)); [|done]. simpl. unfold u32.
  replace ((n + 1) `mod` UINT32_MOD + Z.of_nat (length (filter (fun c => c = d) s)) + 1)%Z with ((n + 1) `mod` UINT32_MOD + (Z.of_nat (length (filter (fun c => c = d) s)) + 1))%Z by lia.
  rewrite Z.add_mod_idemp_l by discriminate. f_equal. lia.
Qed.
Lemma exec_step {S A X} n (m : M S X) (k : X -> prog S A) s x s' : m s = Done (x, s') -> exec (Datatypes.S n) (Act m k) s = exec n (k x) s'.
Proof. intros H. simpl. by rewrite H. Qed.
Lemma undivided s d : no_zero s -> Z.of_nat (occurrences d s) = UINT32_MOD ->
  exists t, exec 15 (pbind (rc_string_utils_split_by_char (Some 1%positive) d) look_at) (St ∅ {[1%positive := OStr AOwn (Copied (bytes_block (s ++ [0%Z]))) 1]} [] 0) = Done (Some (2%positive, [Some (1%positive, s)]), t).
Proof.
  intros Hz Ho. assert (num_splits s d = 1%Z) as Hn by (rewrite num_splits_mod, Ho; reflexivity).
  assert (cstr (bytes_block (s ++ [0%Z])) = Some s) as Hc. { rewrite RcsProofs.cstr_in by set_solver. by rewrite (RcsProofs.string_in_app s []). }
  revert Hc. generalize (bytes_block (s ++ [0%Z])). intros b Hc.
  assert (forall t o, mem t = ∅ -> objs t !! 1%positive = Some o -> (exists n, o = OStr AOwn (Copied b) n) -> string_of 1 t = Done (s, t)) as Hs.
  { intros t o _ Ho' [n ->]. unfold string_of, bind, get_obj, ret. rewrite Ho'. simpl. by rewrite Hc. }
  unfold rc_string_utils_split_by_char, act. rewrite !pbind_act. eexists. etransitivity; [eapply exec_step; eapply Hs; [done|reflexivity|by eexists]|].
  cbv beta. rewrite !pbind_ret, Hn. unfold rc_string_array_create, act.
  Local Ltac go := rewrite ?pbind_act, ?pbind_ret; (etransitivity; [eapply exec_step; reflexivity|]); cbv beta; rewrite ?pbind_ret; cbn [Z.gtb Z.compare mem objs oracle fails];
    repeat match goal with |- context [fresh ?X] => let v := eval vm_compute in (fresh X) in change (fresh X) with v end.
  go. go. go.
  change (Z.to_nat 1) with 1. cbn [init_cells replicate]. unfold act. go. rewrite decide_True by done. go. unfold inc_ref, act. go. unfold move_to_cell, assign_null, act. go. go. unfold look_at, look, act. go. cbn [look_strings]. change (Z.to_nat 1) with 1. cbn [look_strings]. unfold act. go.
  rewrite ?pbind_act. etransitivity; [eapply exec_step; eapply Hs; [done|reflexivity|by eexists]|]. cbv beta. rewrite ?pbind_ret. cbn [look_strings]. rewrite ?pbind_ret. reflexivity.
Qed.

Lemma fits_line line ending : (0%Z ∉ line /\ 10%Z ∉ line /\ 13%Z ∉ line /\ (ending = [10%Z] \/ ending = [13%Z; 10%Z])) -> exists l, line ++ ending = l ++ [10%Z] /\ 10%Z ∉ l /\ line_in (l ++ [10%Z]) line.
Proof.
  intros (H0&H1&H2&[->| ->]).
  - exists line. split; [done|]. split; [done|]. exists 10%Z, []. split_and!; auto.
  - exists (line ++ [13%Z]). rewrite <-(assoc_L (++)). split; [done|]. split; [set_solver|]. exists 13%Z, [10%Z]. split_and!; auto.
Qed.
Lemma line_in_unique buf l1 l2 : line_in buf l1 -> line_in buf l2 -> l1 = l2.
Proof.
  intros (c1&r1&->&H1&A1&A2&A3) (c2&r2&E&H2&B1&B2&B3). destruct (first_at (fun x => x = 13%Z \/ x = 10%Z) _ _ _ _ _ _ E) as (->&_); auto; apply Forall_forall; intros x Hx [->| ->]; done.
Qed.
Lemma delivered_lines_gen n ls bufs : Forall (fun '(line, ending) => 0%Z ∉ line /\ 10%Z ∉ line /\ 13%Z ∉ line /\ (ending = [10%Z] \/ ending = [13%Z; 10%Z]) /\ (Z.of_nat (length (line ++ ending)) <= Z.of_nat n)%Z) ls ->
  delivered n (concat (map (fun '(line, ending) => line ++ ending) ls)) bufs -> 0 < n -> Forall2 line_in bufs (map fst ls).
Proof.
  intros Hls Hd Hn. revert bufs Hd. induction Hls as [|[line ending] ls (H0&H1&H2&H3&H4) _ IH]; intros bufs Hd.
  - simpl in Hd. inversion Hd as [|l text bufs' _ _ _ E|l text bufs' _ Hl _ E|l _ Hl E]; subst.
    + constructor.
    + by destruct l.
    + apply app_eq_nil in E as [-> _]. simpl in Hn. lia.
    + simpl in Hl. lia.
  - destruct (fits_line line ending) as (p&E&Hp&Hin); [done|]. simpl in Hd. rewrite E, <-(assoc_L (++)) in Hd. simpl in Hd. rewrite E, app_length in H4. simpl in H4.
    set (rest := concat _) in *. remember (p ++ 10%Z :: rest) as text eqn:Et. destruct Hd as [|l text bufs' A B Hd|l text bufs' A B Hd|l A B].
    + by destruct p.
    + destruct (first_at (fun x => x = 10%Z) _ _ _ _ _ _ Et) as (->&_&->); auto using not_in. simpl. constructor; auto.
    + exfalso. apply A. assert (p `prefix_of` l \/ l `prefix_of` p) as [[k ->]|[k ->]] by (apply (prefix_weak_total p l (l ++ text)); [by exists (10%Z :: rest)|by exists text]).
      * rewrite <-(assoc_L (++)) in Et. apply app_inv_head in Et. destruct k; simpl in *; [rewrite app_nil_r in B; lia|]. injection Et as -> _. set_solver.
      * rewrite app_length in H4. lia.
    + exfalso. apply A. rewrite Et. set_solver.
Qed.
Lemma delivered_lines ls bufs text : Forall (fun '(line, ending) => 0%Z ∉ line /\ 10%Z ∉ line /\ 13%Z ∉ line /\ (ending = [10%Z] \/ ending = [13%Z; 10%Z]) /\ (Z.of_nat (length (line ++ ending)) <= 2047)%Z) ls ->
  delivered 2047 text bufs -> text = concat (map (fun '(line, ending) => line ++ ending) ls) -> (exists lines, Forall2 line_in bufs lines) /\ (forall lines, Forall2 line_in bufs lines -> lines = map fst ls).
Proof.
  intros Hls Hd ->. assert (Forall2 line_in bufs (map fst ls)) as H by exact (delivered_lines_gen 2047 _ _ Hls Hd (Nat.lt_0_succ _)). split; [eauto|]. intros lines Hl. clear -H Hl. revert lines Hl.
  induction H as [|buf line bufs l Hb _ IH]; intros lines Hl; inversion Hl; subst; [done|]. f_equal; [by eapply line_in_unique|auto].
Qed.
Lemma lines_delivered_gen n text bufs lines : delivered n text bufs -> 13%Z ∉ text -> Forall2 line_in bufs lines ->
  text = concat (map (fun line => line ++ [10%Z]) lines) /\ Forall (fun line => 10%Z ∉ line /\ (Z.of_nat (length line) < Z.of_nat n)%Z) lines.
Proof.
  intros Hd. revert lines. induction Hd as [|l text bufs A B Hd IH|l text bufs A B Hd IH|l A B]; intros lines H13 Hl.
  - inversion Hl; subst. done.
  - inversion Hl as [|? line ? lines' (c&r&E&Hc&_&_&H10) Hl']; subst. destruct (IH lines') as [-> Hf]; [set_solver|done|]. assert (line = l) as ->.
    { assert (forall x, x ∈ l ++ [10%Z] -> x <> 13%Z) as Hn. { intros x Hx ->. apply H13. rewrite elem_of_app in *. destruct Hx as [Hx|Hx]; [by left|]. by apply elem_of_list_singleton in Hx. }
      destruct (first_at (fun x => x = 10%Z) _ _ _ _ _ _ E) as (->&_); auto using not_in. destruct Hc as [->| ->]; [|done]. exfalso. apply (Hn 13%Z); [|done]. rewrite E. set_solver. }
    split; [simpl; by rewrite <-(assoc_L (++))|]. constructor; [split; [done|lia]|done].
  - exfalso. inversion Hl as [|? line ? lines' (c&r&->&Hc&_) Hl']; subst. destruct Hc as [->| ->]; set_solver.
  - exfalso. inversion Hl as [|? line ? lines' (c&r&->&Hc&_) Hl']; subst. destruct Hc as [->| ->]; set_solver.
Qed.
Lemma lines_delivered text bufs lines : delivered 2047 text bufs -> 13%Z ∉ text -> Forall2 line_in bufs lines ->
  text = concat (map (fun line => line ++ [10%Z]) lines) /\ Forall (fun line => 10%Z ∉ line /\ (Z.of_nat (length line) < 2047)%Z) lines.
Proof. exact (lines_delivered_gen 2047 text bufs lines). Qed.
