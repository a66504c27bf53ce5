(** Proofs about the dispatcher of thread notifications. *)
From Verif Require Import Common Prog Conc ConcLists TndModel TndSpec.
Local Open Scope Z_scope.
Notation system := (tndsys true).

Inductive pc :=
| Out
| I0 | I1 | I2 (p : nat) | I3 (p : nat) | I4 (p : nat) | IRet (p : nat) | F1 (p : nat) | F2 (p : nat) | F3 (p : nat) | IBad | IRef
| D0 | D1 (p : nat) | D2 (p : nat) | D3 (p : nat) | D4 (p : nat) | D5 | DRet | DRef
| G0 | G1 (p : nat) | GRet (p : nat) | GNone
| N0 | N1 (p : nat) | N2 (p : nat) | NRet (p : nat) (r : Z) (l : list (nat * Z)) | NNo
| P0 (p : nat) | PRet
| R0 (p : nat) | RRet (p : nat) (t : nat) (f : Z) | RNo (p : nat) | U0 (p : nat) | URet (p t : nat).
Definition isI (l : pc) : bool := match l with I0 | I1 | I2 _ | I3 _ | I4 _ | IRet _ | F1 _ | F2 _ | F3 _ | IBad | IRef => true | _ => false end.
Definition isD (l : pc) : bool := match l with D0 | D1 _ | D2 _ | D3 _ | D4 _ | D5 | DRet | DRef => true | _ => false end.
Definition isC (l : pc) : bool := isI l || isD l.
Definition isG (l : pc) : bool := match l with G0 | G1 _ | GRet _ | GNone => true | _ => false end.
Definition isN (l : pc) : bool := match l with N0 | N1 _ | N2 _ | NRet _ _ _ | NNo => true | _ => false end.
Definition is (p q : nat) : bool := bool_decide (p = q).
Definition owns (p : nat) (l : pc) : bool := match l with I2 q | I3 q | F1 q | F2 q | D2 q | D3 q | GRet q | P0 q => is p q | _ => false end.
Definition uses (p : nat) (l : pc) : bool := match l with R0 q | RRet q _ _ | RNo q | U0 q | URet q _ => is p q | _ => false end.
Definition settled (s : tnd) (h : list event) : Prop :=
  match cell s with None => init s = false /\ cb s = false /\ current h = None | Some p => init s = true /\ cb s = true /\ current h = Some p end.
Definition stat (s : tnd) (l : pc) : Prop :=
  match l with
  | I0 | IBad | D0 | DRet => settled s (hist s)
  | IRet p => settled s (hist s)
  | IRef => settled s (hist s) /\ current (hist s) <> None
  | DRef => settled s (hist s) /\ current (hist s) = None
  | I1 => init s = false /\ cell s = None /\ cb s = false /\ current (hist s) = None
  | I2 p => init s = false /\ cell s = None /\ cb s = false /\ current (hist s) = None /\ forall j, Up j p ∉ hist s
  | I3 p => init s = false /\ cell s = Some p /\ cb s = false /\ current (hist s) = None /\ forall j, Up j p ∉ hist s
  | F1 p | F2 p => init s = false /\ cell s = Some p /\ cb s = false /\ current (hist s) = None /\ forall j, Up j p ∉ hist s
  | F3 p => init s = false /\ cell s = Some p /\ cb s = false /\ current (hist s) = None
  | I4 p => init s = false /\ cell s = Some p /\ cb s = true /\ current (hist s) = Some p
  | D1 p => init s = true /\ cell s = Some p /\ cb s = true /\ current (hist s) = Some p
  | D2 p | D3 p | D4 p => init s = true /\ cell s = Some p /\ cb s = false /\ current (hist s) = None
  | D5 => init s = true /\ cell s = None /\ cb s = false /\ current (hist s) = None
  | N1 p | N2 p | G1 p | GRet p => cell s = Some p /\ current (hist s) = Some p
  | GNone => current (hist s) = None
  | _ => True
  end.
Definition know (i : nat) (h : list event) (l : pc) : Prop :=
  match l with
  | I0 | I1 | I2 _ | I3 _ | F1 _ | F2 _ | F3 _ | IBad | IRef | D0 | D1 _ | DRef | N0 | N1 _ | N2 _ | R0 _ | RNo _ | U0 _ => did i h = []
  | I4 p | IRet p => did i h = [Up i p]
  | D2 _ | D3 _ | D4 _ | D5 | DRet => did i h = [Down i]
  | NRet p r l => did i h = [Calls i p r l]
  | NNo => did i h = [] /\ during down i h = true
  | RRet p t f => did i h = [Registers i p t f]
  | URet p t => did i h = [Unregisters i p t]
  | _ => True
  end.
Fixpoint all_ok (h : list event) : Prop := match h with [] => True | e :: h => event_ok e h /\ all_ok h end.
Definition num_ok (s : tnd) (cC cD cG cN : nat) : Prop :=
  changing s = cC /\ deinits s = cD /\ gets s = cG /\ notifying s = cN /\ (cC <= 1)%nat /\ (cG = 0 \/ cC = 0)%nat /\ (cN = 0 \/ cD = 0)%nat.
Definition cur (h : list event) (p : nat) : nat := if decide (current h = Some p) then 1%nat else 0%nat.
Definition refs_ok (s : tnd) (h : list event) (ls : list pc) (p : nat) : Prop :=
  drefs s p = (cur h p + held s p + cnt (owns p) ls)%nat /\ held s p = holding p h /\
  busy s p = cnt (uses p) ls /\ (busy s p <= held s p)%nat /\
  (next s <= p -> drefs s p = 0%nat /\ forall j, Up j p ∉ h)%nat.
Definition regs_ok (s : tnd) (h : list event) (p : nat) : Prop :=
  regs s p = registered p h /\ ((forall j, Up j p ∉ h) -> held s p = 0%nat /\ registered p h = []) /\ (forall t g, (t, g) ∈ registered p h -> (t < tnext s)%nat).
Notation nums s ls := (num_ok s (cnt isC ls) (cnt isD ls) (cnt isG ls) (cnt isN ls)).
Record Inv (s : tnd) (ls : list pc) : Prop := {
  i_num : nums s ls;
  i_settled : changing s = 0%nat -> settled s (hist s);
  i_refs : forall p, refs_ok s (hist s) ls p;
  i_regs : forall p, regs_ok s (hist s) p;
  i_stat : forall j l, ls !! j = Some l -> stat s l;
  i_know : forall j l, ls !! j = Some l -> know j (hist s) l;
  i_ev : all_ok (hist s);
}.
Definition blk (i : nat) (l : pc) (s : tnd) : Prop := False.
Definition shape (o : op) (p : prog tnd res) (l : pc) : Prop := l <> Out.
Notation runs := (runs_ok system Inv (.= Out) blk shape).

(** Histories. *)
Definition caller (e : event) : option nat := match e with Called i _ => Some i | _ => None end.
Definition actor (e : event) : option nat := match e with Called i _ | Up i _ | Down i | Registers i _ _ _ | Unregisters i _ _ | Calls i _ _ _ => Some i | _ => None end.
Lemma during_mono P i e h : caller e <> Some i -> during P i h = true -> during P i (e :: h) = true.
Proof. intros He H. cbn [during]. destruct e; try (rewrite H; apply orb_true_r). cbn in He. rewrite decide_False by congruence. rewrite H. apply orb_true_r. Qed.
Lemma during_now P i h : P h = true -> during P i h = true.
Proof. intros H. destruct h; cbn [during]; by rewrite H. Qed.
Lemma did_other i e h : actor e <> Some i -> did i (e :: h) = did i h.
Proof. intros H. destruct e; cbn in *; try done; by rewrite decide_False by congruence. Qed.
Lemma know_mono j e h l : actor e <> Some j -> know j h l -> know j (e :: h) l.
Proof.
  intros He. assert (caller e <> Some j) by (destruct e; cbn in *; congruence). destruct l; cbn [know]; rewrite ?(did_other _ _ _ He); try done.
  intros [? ?]; split; [done|by apply during_mono].
Qed.
Lemma all_ok_at pre e h : all_ok (pre ++ e :: h) -> event_ok e h.
Proof. induction pre as [|x pre IH]; cbn; intros [? ?]; auto. Qed.

(** One step of thread i: without an event, with one. *)
Lemma quiet s s' ls i l l' : Inv s ls -> ls !! i = Some l -> hist s' = hist s ->
  nums s' (<[i := l']> ls) -> (changing s' = 0%nat -> settled s' (hist s)) -> (forall p, refs_ok s' (hist s) (<[i := l']> ls) p) -> (forall p, regs_ok s' (hist s) p) ->
  stat s' l' -> (forall j lj, ls !! j = Some lj -> j <> i -> stat s lj -> stat s' lj) -> know i (hist s) l' ->
  Inv s' (<[i := l']> ls).
Proof.
  intros [] Hi Hh Hn Hst Hf Hr Hs Hso Hk. split; rewrite ?Hh; auto.
  - apply thr_upd; [done|]. intros j lj Hj Hne. eauto.
  - apply thr_upd; [done|]. intros j lj Hj Hne. auto.
Qed.
Lemma hist_move s s' ls i l l' e : Inv s ls -> ls !! i = Some l -> hist s' = e :: hist s -> (match actor e with Some j => j = i | _ => True end) ->
  nums s' (<[i := l']> ls) -> (changing s' = 0%nat -> settled s' (e :: hist s)) -> (forall p, refs_ok s' (e :: hist s) (<[i := l']> ls) p) -> (forall p, regs_ok s' (e :: hist s) p) ->
  stat s' l' -> (forall j lj, ls !! j = Some lj -> j <> i -> stat s lj -> stat s' lj) -> know i (e :: hist s) l' ->
  event_ok e (hist s) ->
  Inv s' (<[i := l']> ls).
Proof.
  intros [] Hi Hh He Hn Hst Hf Hr Hs Hso Hk Hev. split; rewrite ?Hh; auto.
  - apply thr_upd; [done|]. intros j lj Hj Hne. eauto.
  - apply thr_upd; [done|]. intros j lj Hj Hne. assert (actor e <> Some j) by (destruct (actor e); congruence). apply know_mono; auto.
  - by split.
Qed.
(** Who may be where beside thread i. *)
Lemma alone s ls i j l lj : Inv s ls -> ls !! i = Some l -> ls !! j = Some lj -> j <> i -> isC l = true -> isC lj = false /\ isG lj = false /\ (isD l = true -> isN lj = false).
Proof.
  intros HI Hi Hj Hne Hl. destruct (i_num _ _ HI) as (H1&H2&H3&H4&H5&H6&H7). pose proof (cnt_pos isC ls i l Hi Hl). split_and!.
  - destruct (isC lj) eqn:E; [|done]. pose proof (cnt_two isC ls i j l lj (not_eq_sym Hne) Hi Hj Hl E). lia.
  - destruct (isG lj) eqn:E; [|done]. pose proof (cnt_pos isG ls j lj Hj E). lia.
  - intros Hd. destruct (isN lj) eqn:E; [|done]. pose proof (cnt_pos isN ls j lj Hj E). pose proof (cnt_pos isD ls i l Hi Hd). lia.
Qed.
Lemma stat_far s s' lj : isC lj = false -> isG lj = false -> isN lj = false -> stat s lj -> stat s' lj.
Proof. by destruct lj. Qed.
Lemma stat_down s s' lj : isC lj = false -> isG lj = false -> current (hist s) = None -> stat s lj -> stat s' lj.
Proof. destruct lj; cbn; try done; intros _ _ E [? ?]; congruence. Qed.
Lemma stat_init s s' lj : isC lj = false -> isG lj = false -> cell s' = cell s -> current (hist s') = current (hist s) -> stat s lj -> stat s' lj.
Proof. destruct lj; cbn; try done; intros _ _ -> ->; done. Qed.
Lemma stat_same s s' lj : init s' = init s -> cell s' = cell s -> cb s' = cb s -> current (hist s') = current (hist s) -> (forall j p, Up j p ∉ hist s -> Up j p ∉ hist s') -> stat s lj -> stat s' lj.
Proof. intros E1 E2 E3 E4 E5. destruct lj; cbn; unfold settled; try done; rewrite ?E1, ?E2, ?E3, ?E4; try done; intros; destruct_and?; split_and!; eauto. Qed.

Ltac fields := cbn [init cell cb drefs regs next tnext held busy changing deinits gets notifying hist set_vars set_refs set_regs set_held set_runs add_ev] in *.
Ltac count1 b Hi l l' ls := first [rewrite (cnt_same b ls _ l l' Hi eq_refl)|pose proof (cnt_upd b ls _ l l' Hi)].
Ltac numeric HI Hi l l' ls :=
  let H := fresh in pose proof (i_num _ _ HI) as H; unfold num_ok in *; fields; count1 isC Hi l l' ls; count1 isD Hi l l' ls; count1 isG Hi l l' ls; count1 isN Hi l l' ls; cbn [isC isI isD isG isN orb Nat.b2n] in *;
  destruct H as (?&?&?&?&?&?&?); split_and!; lia.
Ltac refs HI Hi l l' ls :=
  let p := fresh "p" in let H := fresh in intros p; pose proof (i_refs _ _ HI p) as H; unfold refs_ok, cur in *; fields; cbn [holding current] in *; count1 (owns p) Hi l l' ls; count1 (uses p) Hi l l' ls; cbn [owns uses Nat.b2n] in *;
  destruct H as (?&?&?&?&?); unfold upd, is in *.
Ltac noup := let j := fresh in let q := fresh in intros j q ?; rewrite elem_of_cons; intros [?|?]; done.
(** Nothing else than the history changes for the other threads. *)
Ltac others := let j := fresh in let lj := fresh in intros j lj _ _; apply stat_same; fields; cbn [current]; auto; noup.

Section acts.
Context (i : nat) (s : tnd) (ls : list pc).
Context (HI : Inv s ls).
Ltac getk Hi := pose proof (i_know _ _ HI _ _ Hi) as Hk; pose proof (i_stat _ _ HI _ _ Hi) as Hs; cbn [know stat] in Hk, Hs.
Lemma busy_C l : ls !! i = Some l -> isC l = true -> changing s <> 0%nat.
Proof. intros Hi Hl. destruct (i_num _ _ HI) as (->&_). pose proof (cnt_pos isC ls i l Hi Hl). lia. Qed.
Lemma a_fresh : drefs s (next s) = 0%nat /\ (forall j, Up j (next s) ∉ hist s) /\ held s (next s) = 0%nat /\ registered (next s) (hist s) = [].
Proof. destruct (i_refs _ _ HI (next s)) as (_&_&_&_&H). destruct (H ltac:(lia)) as [H1 H2]. destruct (i_regs _ _ HI (next s)) as (_&H3&_). destruct (H3 H2). done. Qed.
Lemma a_alive l p : ls !! i = Some l -> owns p l = true \/ uses p l = true \/ current (hist s) = Some p -> (0 < drefs s p)%nat /\ (p < next s)%nat.
Proof.
  intros Hi Hl. destruct (i_refs _ _ HI p) as (H1&H2&H3&H4&H5). assert (0 < drefs s p)%nat as Hd.
  { destruct Hl as [Hl|[Hl|Hl]]; [pose proof (cnt_pos (owns p) ls i l Hi Hl); lia|pose proof (cnt_pos (uses p) ls i l Hi Hl); lia|unfold cur in H1; rewrite decide_True in H1 by done; lia]. }
  split; [done|]. destruct (decide (next s <= p)%nat) as [Hle|]; [|lia]. destruct (H5 Hle). lia.
Qed.
Lemma regs_same s' e : regs s' = regs s -> held s' = held s -> tnext s' = tnext s -> (match e with Registers _ _ _ _ | Unregisters _ _ _ => False | _ => True end) -> forall p, regs_ok s' (e :: hist s) p.
Proof.
  intros E1 E2 E3 E4 p. destruct (i_regs _ _ HI p) as (H1&H2&H3). unfold regs_ok. rewrite E1, E2, E3. assert (registered p (e :: hist s) = registered p (hist s)) as -> by (by destruct e).
  split_and!; [done| |done]. intros Hu. apply H2. intros j Hj. apply (Hu j). by right.
Qed.
Lemma regs_quiet s' : regs s' = regs s -> held s' = held s -> tnext s' = tnext s -> forall p, regs_ok s' (hist s) p.
Proof. intros E1 E2 E3 p. destruct (i_regs _ _ HI p) as (H1&H2&H3). unfold regs_ok. by rewrite E1, E2, E3. Qed.
(** A step that changes nothing, or only the local state *)
Lemma a_local l l' : ls !! i = Some l -> isC l = isC l' -> isD l = isD l' -> isG l = isG l' -> isN l = isN l' -> (forall p, owns p l = owns p l') -> (forall p, uses p l = uses p l') -> stat s l' -> know i (hist s) l' -> Inv s (<[i := l']> ls).
Proof.
  intros Hi E1 E2 E3 E4 E5 E6 Hs Hk. apply (quiet s s ls i l l'); auto.
  - rewrite (cnt_same isC ls i l l' Hi E1), (cnt_same isD ls i l l' Hi E2), (cnt_same isG ls i l l' Hi E3), (cnt_same isN ls i l l' Hi E4). apply HI.
  - apply HI.
  - intros p. destruct (i_refs _ _ HI p) as (?&?&?&?&?). unfold refs_ok. rewrite (cnt_same (owns p) ls i l l' Hi (E5 p)), (cnt_same (uses p) ls i l l' Hi (E6 p)). done.
  - apply HI.
Qed.
Ltac hm e l l' Hi := eapply (hist_move s _ ls i l l' e); [exact HI|exact Hi|reflexivity|first [reflexivity|exact I]|..]; fields.
Ltac qm l l' Hi := eapply (quiet s _ ls i l l'); [exact HI|exact Hi|reflexivity|..]; fields.
Ltac cs Hi := intros Hz; exfalso; refine (busy_C _ Hi _ _); [reflexivity|exact Hz].
Lemma a_create : ls !! i = Some I1 -> match create s with Done (x, s') => Inv s' (<[i := I2 x]> ls) | _ => False end.
Proof.
  intros Hi. getk Hi. unfold create. destruct a_fresh as (F1'&F2'&F3'&F4'). apply (quiet s _ ls i I1 (I2 (next s))); auto; fields.
  - numeric HI Hi I1 (I2 (next s)) ls.
  - cs Hi.
  - refs HI Hi I1 (I2 (next s)) ls. destruct (decide (p = next s)) as [->|Hne].
    + rewrite bool_decide_true in * by done. cbn [Nat.b2n] in *. split_and!; try done; lia.
    + rewrite bool_decide_false in * by done. cbn [Nat.b2n] in *. split_and!; try done; try lia. intros Hle. match goal with H : _ -> _ = 0%nat /\ _ |- _ => apply H; lia end.
  - intros p. destruct (i_regs _ _ HI p) as (H1&H2&H3). unfold regs_ok; fields. unfold upd. case_decide; subst; done.
  - naive_solver.
Qed.
Lemma a_write p : ls !! i = Some (I2 p) -> forall l', l' = I3 p \/ l' = F1 p -> match write_cell (Some p) s with Done (x, s') => Inv s' (<[i := l']> ls) | _ => False end.
Proof.
  intros Hi l' Hl'. getk Hi. destruct Hs as (E1&E2&E3&E4&E5). unfold write_cell.
  assert (forall j lj, ls !! j = Some lj -> j <> i -> stat s lj -> stat (set_vars (init s) (Some p) (cb s) s) lj) as Ho.
  { intros j lj Hj Hne; destruct (alone _ _ _ _ _ _ HI Hi Hj Hne eq_refl) as (?&?&_); by apply stat_down. }
  destruct Hl' as [-> | ->]; (eapply (quiet s _ ls i (I2 p)); [exact HI|exact Hi|reflexivity|..|exact Ho|exact Hk]; [|cs Hi| |by apply regs_quiet|done]).
  - numeric HI Hi (I2 p) (I3 p) ls.
  - refs HI Hi (I2 p) (I3 p) ls; done.
  - numeric HI Hi (I2 p) (F1 p) ls.
  - refs HI Hi (I2 p) (F1 p) ls; done.
Qed.
Lemma a_lackey_init p : ls !! i = Some (I3 p) -> match lackey_init i s with Done (_, s') => Inv s' (<[i := I4 p]> ls) | _ => False end.
Proof.
  intros Hi. getk Hi. destruct Hs as (E1&E2&E3&E4&E5). unfold lackey_init. rewrite E2. destruct (i_regs _ _ HI p) as (_&R2&_). destruct (R2 E5) as [R3 R4].
  destruct (a_alive _ p Hi ltac:(left; by apply bool_decide_true)) as [A1 A2].
  hm (Up i p) (I3 p) (I4 p) Hi.
  - numeric HI Hi (I3 p) (I4 p) ls.
  - cs Hi.
  - refs HI Hi (I3 p) (I4 p) ls. rewrite E4 in *. destruct (decide (p0 = p)) as [->|Hne].
    + rewrite bool_decide_true in * by done. rewrite decide_True by done. rewrite decide_False in * by done. cbn [Nat.b2n] in *. split_and!; try done; try lia.
    + rewrite bool_decide_false in * by done. rewrite decide_False by congruence. rewrite decide_False in * by done. cbn [Nat.b2n] in *. split_and!; try done; try lia. intros Hle.
      match goal with H : _ -> _ = 0%nat /\ _ |- _ => destruct (H Hle) as [? H'] end. split; [done|]. intros j. rewrite elem_of_cons. intros [?|?]; [congruence|by apply (H' j)].
  - by apply regs_same.
  - done.
  - intros j lj Hj Hne; destruct (alone _ _ _ _ _ _ HI Hi Hj Hne eq_refl) as (?&?&_); by apply stat_down.
  - cbn [know did]. rewrite decide_True by done. by rewrite Hk.
  - done.
Qed.
Lemma a_state_up p : ls !! i = Some (I4 p) -> match write_state true s with Done (_, s') => Inv s' (<[i := IRet p]> ls) | _ => False end.
Proof.
  intros Hi. getk Hi. destruct Hs as (E1&E2&E3&E4). unfold write_state. qm (I4 p) (IRet p) Hi.
  - numeric HI Hi (I4 p) (IRet p) ls.
  - cs Hi.
  - refs HI Hi (I4 p) (IRet p) ls; done.
  - by apply regs_quiet.
  - cbn. unfold settled; fields. by rewrite E2.
  - intros j lj Hj Hne; destruct (alone _ _ _ _ _ _ HI Hi Hj Hne eq_refl) as (?&?&_); by apply stat_init.
  - exact Hk.
Qed.
(** Giving up a reference: thread i goes from l, which owns one to p, to l'. *)
Lemma a_dec l l' p : ls !! i = Some l -> (forall q, owns q l = is q p) -> (forall q, owns q l' = false) -> isC l = isC l' -> isD l = isD l' -> isG l = isG l' -> isN l = isN l' -> (forall q, uses q l = uses q l') -> isN l = false -> isG l = false ->
  (isC l = false \/ current (hist s) <> Some p) ->
  (forall s', init s' = init s -> cell s' = cell s -> cb s' = cb s -> current (hist s') = current (hist s) -> (forall j p, Up j p ∉ hist s -> Up j p ∉ hist s') -> stat s' l') ->
  (forall e, actor e = None -> know i (e :: hist s) l') -> know i (hist s) l' ->
  match dec_ref p s with Done (_, s') => Inv s' (<[i := l']> ls) | _ => False end.
Proof.
  intros Hi O1 O2 E1 E2 E3 E4 E5 E6 E7 _ Hst Hke Hkq. destruct (a_alive l p Hi ltac:(left; rewrite O1; by apply bool_decide_true)) as [A1 A2].
  assert (nums s (<[i := l']> ls)) as Hn. { rewrite (cnt_same isC ls i l l' Hi E1), (cnt_same isD ls i l l' Hi E2), (cnt_same isG ls i l l' Hi E3), (cnt_same isN ls i l l' Hi E4). apply HI. }
  assert (forall q, cnt (owns q) ls = cnt (owns q) (<[i:=l']> ls) + Nat.b2n (is q p))%nat as Ho. { intros q. pose proof (cnt_upd (owns q) ls i l l' Hi) as H. rewrite O1, O2 in H. cbn [Nat.b2n] in H. lia. }
  assert (forall q, cnt (uses q) (<[i:=l']> ls) = cnt (uses q) ls) as Hu. { intros q. by apply (cnt_same (uses q) ls i l l' Hi). }
  unfold dec_ref. destruct (drefs s p) as [|[|n]] eqn:E; [lia| |].
  - hm (Freed p) l l' Hi.
    + exact Hn.
    + apply HI.
    + intros q. destruct (i_refs _ _ HI q) as (R1&R2&R3&R4&R5). rewrite Ho in R1. unfold refs_ok in *; fields; cbn [holding]. unfold cur in *. cbn [current]. rewrite Hu. unfold upd, is in *. destruct (decide (q = p)) as [->|Hne].
      * rewrite bool_decide_true in R1 by done. cbn in R1. split_and!; try done; try lia. 
      * rewrite bool_decide_false in R1 by done. cbn in R1. split_and!; try done; try lia. intros Hle. destruct (R5 Hle) as [? R6]. split; [done|]. intros j. rewrite elem_of_cons. intros [?|?]; [done|by apply (R6 j)].
    + by apply regs_same.
    + apply Hst; fields; auto. noup.
    + others.
    + by apply Hke.
    + cbn. destruct (i_refs _ _ HI p) as (R1&R2&R3&R4&R5). rewrite Ho, E in R1. unfold is, cur in R1. rewrite bool_decide_true in R1 by done. cbn in R1. case_decide; [lia|]. split; [done|lia].
  - qm l l' Hi.
    + exact Hn.
    + apply HI.
    + intros q. destruct (i_refs _ _ HI q) as (R1&R2&R3&R4&R5). rewrite Ho in R1. unfold refs_ok in *; fields; cbn [holding]. rewrite Hu. unfold upd, is in *. destruct (decide (q = p)) as [->|Hne].
      * rewrite bool_decide_true in R1 by done. cbn in R1. split_and!; try done; try lia.
      * rewrite bool_decide_false in R1 by done. cbn in R1. split_and!; try done; try lia. 
    + by apply regs_quiet.
    + apply Hst; fields; auto.
    + intros j lj _ _. apply stat_same; auto.
    + exact Hkq.
Qed.
Lemma a_null_f p : ls !! i = Some (F3 p) -> match write_cell None s with Done (_, s') => Inv s' (<[i := IBad]> ls) | _ => False end.
Proof.
  intros Hi. getk Hi. destruct Hs as (E1&E2&E3&E4). unfold write_cell. qm (F3 p) IBad Hi.
  - numeric HI Hi (F3 p) IBad ls.
  - cs Hi.
  - refs HI Hi (F3 p) IBad ls; done.
  - by apply regs_quiet.
  - done.
  - intros j lj Hj Hne; destruct (alone _ _ _ _ _ _ HI Hi Hj Hne eq_refl) as (?&?&_); by apply stat_down.
  - done.
Qed.
Lemma a_null_d p : ls !! i = Some (D4 p) -> match write_cell None s with Done (_, s') => Inv s' (<[i := D5]> ls) | _ => False end.
Proof.
  intros Hi. getk Hi. destruct Hs as (E1&E2&E3&E4). unfold write_cell. qm (D4 p) D5 Hi.
  - numeric HI Hi (D4 p) D5 ls.
  - cs Hi.
  - refs HI Hi (D4 p) D5 ls; done.
  - by apply regs_quiet.
  - done.
  - intros j lj Hj Hne; destruct (alone _ _ _ _ _ _ HI Hi Hj Hne eq_refl) as (?&?&_); by apply stat_down.
  - done.
Qed.
Lemma a_lackey_deinit p : ls !! i = Some (D1 p) -> match lackey_deinit i s with Done (_, s') => Inv s' (<[i := D2 p]> ls) | _ => False end.
Proof.
  intros Hi. getk Hi. destruct Hs as (E1&E2&E3&E4). unfold lackey_deinit. hm (Down i) (D1 p) (D2 p) Hi.
  - numeric HI Hi (D1 p) (D2 p) ls.
  - cs Hi.
  - refs HI Hi (D1 p) (D2 p) ls. rewrite E4 in *. rewrite decide_False by done. destruct (decide (p0 = p)) as [->|Hne].
    + rewrite bool_decide_true in * by done. rewrite decide_True in * by done. cbn [Nat.b2n] in *. split_and!; try done; try lia.
    + rewrite bool_decide_false in * by done. rewrite decide_False in * by congruence. cbn [Nat.b2n] in *. split_and!; try done; try lia.
      intros Hle. match goal with H : _ -> _ = 0%nat /\ _ |- _ => destruct (H Hle) as [? H'] end. split; [done|]. intros j. rewrite elem_of_cons. intros [?|?]; [congruence|by apply (H' j)].
  - by apply regs_same.
  - done.
  - intros j lj Hj Hne; destruct (alone _ _ _ _ _ _ HI Hi Hj Hne eq_refl) as (?&?&H). by apply stat_far; auto.
  - cbn [know did]. rewrite decide_True by done. by rewrite Hk.
  - cbn. congruence.
Qed.
Lemma a_state_down : ls !! i = Some D5 -> match write_state false s with Done (_, s') => Inv s' (<[i := DRet]> ls) | _ => False end.
Proof.
  intros Hi. getk Hi. destruct Hs as (E1&E2&E3&E4). unfold write_state. qm D5 DRet Hi.
  - numeric HI Hi D5 DRet ls.
  - cs Hi.
  - refs HI Hi D5 DRet ls; done.
  - by apply regs_quiet.
  - cbn. unfold settled; fields. by rewrite E2.
  - intros j lj Hj Hne; destruct (alone _ _ _ _ _ _ HI Hi Hj Hne eq_refl) as (?&?&_); by apply stat_init.
  - done.
Qed.
Lemma a_inc p : ls !! i = Some (G1 p) -> match inc_ref p s with Done (_, s') => Inv s' (<[i := GRet p]> ls) | _ => False end.
Proof.
  intros Hi. getk Hi. destruct Hs as (E1&E2). destruct (a_alive _ p Hi ltac:(auto)) as [A1 A2]. unfold inc_ref. destruct (drefs s p) as [|n] eqn:E; [lia|]. qm (G1 p) (GRet p) Hi.
  - numeric HI Hi (G1 p) (GRet p) ls.
  - apply HI.
  - refs HI Hi (G1 p) (GRet p) ls. destruct (decide (p0 = p)) as [->|Hne].
    + rewrite bool_decide_true in * by done. cbn [Nat.b2n] in *. split_and!; try done; try lia.
    + rewrite bool_decide_false in * by done. cbn [Nat.b2n] in *. split_and!; try done; try lia.
  - by apply regs_quiet.
  - done.
  - intros j lj _ _. apply stat_same; auto.
  - done.
Qed.
Ltac more := let Hle := fresh in let H' := fresh in intros Hle; match goal with H : _ -> _ = 0%nat /\ _ |- _ => destruct (H Hle) as [? H'] end; split; [done|]; let j := fresh in intros j; rewrite elem_of_cons; intros [?|?]; [congruence|by apply (H' j)].
Lemma a_dispatch p r : ls !! i = Some (N2 p) -> match dispatch i p r s with Done (_, s') => Inv s' (<[i := NRet p r (registered p (hist s))]> ls) | _ => False end.
Proof.
  intros Hi. getk Hi. destruct Hs as (E1&E2). destruct (a_alive _ p Hi ltac:(auto)) as [A1 A2]. unfold dispatch. destruct (drefs s p) as [|n] eqn:E; [lia|]. destruct (i_regs _ _ HI p) as (->&_).
  hm (Calls i p r (registered p (hist s))) (N2 p) (NRet p r (registered p (hist s))) Hi.
  - numeric HI Hi (N2 p) (NRet p r (registered p (hist s))) ls.
  - apply HI.
  - refs HI Hi (N2 p) (NRet p r (registered p (hist s))) ls. split_and!; try done. more.
  - by apply regs_same.
  - done.
  - others.
  - cbn [know did]. rewrite decide_True by done. by rewrite Hk.
  - done.
Qed.
Lemma a_register p f : ls !! i = Some (R0 p) -> match register i p f s with Done (t, s') => Inv s' (<[i := RRet p t f]> ls) | _ => False end.
Proof.
  intros Hi. getk Hi. destruct (a_alive _ p Hi ltac:(right; left; by apply bool_decide_true)) as [A1 A2]. unfold register. destruct (drefs s p) as [|n] eqn:E; [lia|].
  assert (0 < busy s p)%nat as Hb. { destruct (i_refs _ _ HI p) as (_&_&->&_). apply (cnt_pos _ ls i (R0 p) Hi). by apply bool_decide_true. }
  hm (Registers i p (tnext s) f) (R0 p) (RRet p (tnext s) f) Hi.
  - numeric HI Hi (R0 p) (RRet p (tnext s) f) ls.
  - apply HI.
  - refs HI Hi (R0 p) (RRet p (tnext s) f) ls. split_and!; try done. more.
  - intros q. destruct (i_regs _ _ HI q) as (H1&H2&H3). unfold regs_ok; fields; cbn [registered]. unfold upd. destruct (decide (q = p)) as [->|Hne].
    + split_and!; [by rewrite H1| |].
      * intros Hu. exfalso. destruct H2 as [H2 _]; [intros j Hj; apply (Hu j); by right|]. destruct (i_refs _ _ HI p) as (_&_&_&?&_). lia.
      * intros t g. rewrite elem_of_app, elem_of_list_singleton. intros [Ht| [= -> ->]]; [|lia]. specialize (H3 _ _ Ht). lia.
    + split_and!; [done| |].
      * intros Hu. apply H2. intros j Hj. apply (Hu j). by right.
      * intros t g Ht. specialize (H3 _ _ Ht). lia.
  - done.
  - others.
  - cbn [know did]. rewrite decide_True by done. by rewrite Hk.
  - intros q g Hq. destruct (i_regs _ _ HI q) as (_&_&H3). specialize (H3 _ _ Hq). lia.
Qed.
Lemma a_unregister p t : ls !! i = Some (U0 p) -> match unregister i p t s with Done (_, s') => Inv s' (<[i := URet p t]> ls) | _ => False end.
Proof.
  intros Hi. getk Hi. destruct (a_alive _ p Hi ltac:(right; left; by apply bool_decide_true)) as [A1 A2]. unfold unregister. destruct (drefs s p) as [|n] eqn:E; [lia|].
  hm (Unregisters i p t) (U0 p) (URet p t) Hi.
  - numeric HI Hi (U0 p) (URet p t) ls.
  - apply HI.
  - refs HI Hi (U0 p) (URet p t) ls. split_and!; try done. more.
  - intros q. destruct (i_regs _ _ HI q) as (H1&H2&H3). unfold regs_ok; fields; cbn [registered]. unfold upd. destruct (decide (q = p)) as [->|Hne].
    + split_and!; [by rewrite H1| |].
      * intros Hu. destruct H2 as [H2 H4]; [intros j Hj; apply (Hu j); by right|]. split; [done|]. by rewrite H4.
      * intros t' g. rewrite elem_of_list_filter. intros [_ Ht]. eauto.
    + split_and!; [done| |done]. intros Hu. apply H2. intros j Hj. apply (Hu j). by right.
  - done.
  - others.
  - cbn [know did]. rewrite decide_True by done. by rewrite Hk.
  - done.
Qed.
End acts.
