(** Proofs about CANCELLATION_TOKEN. *)
From Verif Require Import Common Prog Conc ConcLists CtokModel CtokSpec.
Local Open Scope Z_scope.

Inductive pc :=
| Out | N | I0 | I1 (b : bool)
| R0 (f c : Z) (m1 m2 : bool) | Rc (f c : Z) | Rd (f c : Z) | Re (f c : Z) | Ra (f c : Z) (m2 : bool) | Rn | R1 (r : addr) (f c : Z) | Rf (r : addr) | R2 (r h : addr) (f c : Z) | R3 (r : addr) (f c : Z)
| U0 (r : addr) | U1 (r h : addr) | U2 (r : addr) | U3 (r : addr)
| C0 | CF | C1 | D (k : nat) | Da (k : nat) (t : target) | D4 (k : nat) (t : target) | D6 | D7.
Definition winner (l : pc) : bool := match l with C1 | D _ | Da _ _ | D4 _ _ | D6 | D7 => true | _ => false end.
Definition loser (l : pc) : bool := match l with C0 | CF => true | _ => false end.
Definition inC (l : pc) : bool := winner l || loser l.
Definition reads (l : pc) : bool := match l with D _ | Da _ _ | D4 _ _ | D6 => true | _ => false end.
Definition is_D4 (l : pc) : bool := match l with D4 _ _ => true | _ => false end.
Definition is_R2 (l : pc) : bool := match l with R2 _ _ _ _ => true | _ => false end.
Definition owns (l : pc) : option addr := match l with R1 r _ _ | Rf r | R2 r _ _ _ | R3 r _ _ | U0 r | U1 r _ | U2 r => Some r | _ => None end.
Definition linked (l : pc) : option addr := match l with R2 r _ _ _ | R3 r _ _ | U0 r | U1 r _ => Some r | _ => None end.
Fixpoint answers (h : list event) : nat := match h with [] => 0 | Returned _ (Cancel true) _ :: h => S (answers h) | _ :: h => answers h end.
Section b0.
Context (b0 : bool).
Definition poss (s : tok) : Prop := b0 = true \/ attempts (hist s) <> 0%nat.
Definition thr (s : tok) (i : nat) (l : pc) : Prop :=
  match l with
  | Out => True
  | I1 b => made i (hist s) = [] /\ (knew b0 i (hist s) = true -> b = true) /\ (b = true -> poss s /\ canceled s = true)
  | Rc f c => made i (hist s) = [] /\ canceled s = true /\ poss s
  | Rd f c | Re f c => made i (hist s) = [(None, f, c)] /\ poss s
  | Ra f c m2 => made i (hist s) = [] /\ knew b0 i (hist s) = false
  | Rn => made i (hist s) = [] /\ knew b0 i (hist s) = false
  | R1 r f c => made i (hist s) = [] /\ knew b0 i (hist s) = false /\ r ∉ tr <$> regs s /\ blocks s !! r = Some None
  | Rf r => made i (hist s) = [] /\ knew b0 i (hist s) = false
  | R2 r h f c => made i (hist s) = [] /\ knew b0 i (hist s) = false /\ Target h r f c ∈ targets s
  | R3 r f c => made i (hist s) = [] /\ knew b0 i (hist s) = false /\ exists h, Target h r f c ∈ regs s
  | U1 r h => made i (hist s) = [] /\ exists f c, Target h r f c ∈ targets s
  | U2 r | U3 r => made i (hist s) = [] /\ r ∈ tr <$> regs s /\ r ∉ tr <$> targets s
  | CF => made i (hist s) = [] /\ canceled s = true /\ (b0 = true \/ (attempts (hist s) > 1)%nat)
  | C1 | D _ | Da _ _ | D4 _ _ | D6 | D7 => knew b0 i (hist s) = false
  | _ => made i (hist s) = []
  end.
Definition upto (s : tok) (i k : nat) : Prop := made i (hist s) = shown <$> take k (targets s) /\ notified (hist s) = reverse (tr <$> take k (targets s)).
Definition wst (s : tok) (i : nat) (l : pc) : Prop :=
  match l with
  | C1 => made i (hist s) = [] /\ notified (hist s) = []
  | D k => upto s i k
  | Da k t => upto s i k /\ targets s !! k = Some t
  | D4 k t => upto s i (S k) /\ targets s !! k = Some t
  | D6 => upto s i (length (targets s))
  | D7 => (exists l, made i (hist s) = shown <$> l /\ l `sublist_of` regs s) /\ forall x, x ∈ must i (hist s) -> x ∈ notified (hist s)
  | _ => True
  end.
Fixpoint all_ok (order : list target) (h : list event) : Prop := match h with [] => True | e :: h => event_ok b0 order e h /\ all_ok order h end.
Record Inv (s : tok) (ls : list pc) : Prop := {
  i_sum : (cnt winner ls + wins (hist s) = if canceled s && negb b0 then 1 else 0)%nat;
  i_none : (cnt winner ls + wins (hist s) = 0)%nat -> notified (hist s) = [];
  i_att : attempts (hist s) = (cnt inC ls + answers (hist s))%nat;
  i_known : known b0 (hist s) = true -> canceled s = true;
  i_win : forall i l, ls !! i = Some l -> winner l = true -> wst s i l;
  i_read : forall i, reading s = Some i <-> exists l, ls !! i = Some l /\ reads l = true;
  i_own : elements (dom (blocks s)) ≡ₚ handles (hist s) ++ omap owns ls;
  i_link : tr <$> targets s ≡ₚ handles (hist s) ++ omap linked ls;
  i_field : forall t, t ∈ targets s -> (exists i f c, ls !! i = Some (R2 (tr t) (th t) f c)) \/ blocks s !! tr t = Some (Some (th t));
  i_fresh : (forall r, r ∈ dom (blocks s) -> (r < fresh s)%nat) /\ (forall t, t ∈ regs s -> (th t < fresh s)%nat /\ (tr t < fresh s)%nat);
  i_sub : targets s `sublist_of` regs s;
  i_th : NoDup (th <$> regs s);
  i_tr : NoDup (tr <$> regs s);
  i_thr : forall i l, ls !! i = Some l -> thr s i l;
  i_gone : forall x, x ∈ disposed (hist s) -> x ∈ tr <$> regs s /\ x ∉ tr <$> targets s;
  i_prog : forall i x, (i, Some x) ∈ in_progress (hist s) -> exists k t, ls !! i = Some (D4 k t) /\ tr t = x;
  i_ev : all_ok (regs s) (hist s);
}.
Definition blk (i : nat) (l : pc) (s : tok) : Prop := reads l = false /\ reading s <> None.
(** Only a registration changes the order; canceled is never taken back; the handles change only when calls are made and answered. *)
Definition grows (o : op) (p : prog tok res) : Prop :=
  match p with
  | Act m k => forall s x s', m s = Done (x, s') -> (canceled s = true -> canceled s' = true) /\ handles (hist s') = handles (hist s) /\
    (regs s' = regs s \/ exists f c m1 m2 h r, o = Register true f c m1 m2 /\ regs s' = regs s ++ [Target h r f c])
  | _ => True
  end.
(** Where a call is that does not dispose of a registration. *)
Definition disposing (l : pc) : bool := match l with U0 _ | U1 _ _ | U2 _ | U3 _ | Out => true | _ => false end.
Definition lends (o : op) : bool := match o with IsCanceled d | Register d _ _ _ _ | Cancel d => d | Dispose _ => false end.
Definition place (o : op) (p : prog tok res) (l : pc) : Prop :=
  match o with
  | Dispose _ => True
  | _ => disposing l = false /\ (lends o = false -> l = N) /\ forall r, p = Ret (Handle (Some r)) -> exists f c, l = R3 r f c
  end.
Definition shape (o : op) (p : prog tok res) (l : pc) : Prop := grows o p /\ place o p l.
Ltac shp := split; [cbn [grows]; intros ? ? ? E;
  unfold load_state, cas_canceled, malloc_registration, free_registration, set_target_handle, get_target_handle, register_target, unregister_target, dispatch_begin, dispatch_nth, dispatch_end, begin_callback, end_callback in E;
  repeat case_match; simplify_eq; (split_and!; [by auto|done|eauto 12])|cbn [place]; try (split; [done|split]); done].
Notation runs := (runs_ok token Inv (.= Out) blk shape).

(** Histories. *)
Definition actor (e : event) : nat := match e with Called i _ | Returned i _ _ | Begins i _ _ _ | Ends i _ => i end.
Lemma all_ok_mono order order' h : order `prefix_of` order' -> all_ok order h -> all_ok order' h.
Proof.
  intros [k ->]. induction h as [|e h IH]; [done|]. intros [He Hh]. split; [|auto]. clear IH Hh.
  destruct e as [j o|j [d|d f c m1 m2|x|d] r|j [x|] f c|j x]; try done; cbn [event_ok] in *.
  - destruct (d && negb (f =? 0)); [|done]. destruct He as [?|(?&?&He)]; [by left|right]. split_and!; auto. destruct (m1 && m2); [|done]. destruct He as (h'&x&?&?&?). exists h', x. rewrite elem_of_app. auto.
  - destruct d; [|done]. destruct He as [(?&?&?&?&(l&?&?)&?)|?]; [left|by right]. split_and!; auto. exists l. split; [done|]. by apply sublist_inserts_r.
  - destruct He as (?&?&t&?). split_and!; auto. exists t. rewrite elem_of_app. auto.
Qed.
Lemma all_ok_at order pre e h : all_ok order (pre ++ e :: h) -> event_ok b0 order e h.
Proof. induction pre as [|x pre IH]; cbn; intros [? ?]; auto. Qed.
Lemma must_handles i h t : t ∈ must i h -> t ∈ handles h.
Proof.
  induction h as [|e h IH]; [done|]. destruct e as [j o|j [d|d f c m1 m2|x|d] r|j x f c|j x]; cbn [must handles]; auto.
  - destruct o; auto.
    + rewrite !elem_of_list_filter. intros [? ?]. auto.
    + case_decide; auto.
  - destruct r as [|[]| |]; auto. intros. right. auto.
Qed.
Lemma made_other j e h : j <> actor e -> made j (e :: h) = made j h.
Proof. destruct e; cbn; intros; try done; by rewrite decide_False. Qed.
Lemma knew_other j e h : j <> actor e -> knew b0 j (e :: h) = knew b0 j h.
Proof. destruct e; cbn; intros; try done; by rewrite decide_False. Qed.
Lemma must_other j e h x : j <> actor e -> x ∈ must j (e :: h) -> x ∈ must j h.
Proof. destruct e as [i []|i ? ?|i ? ?|i ?]; cbn; intros Hj; try done; [rewrite elem_of_list_filter; by intros []|by rewrite decide_False]. Qed.
Lemma knew_known i h : knew b0 i h = true -> known b0 h = true.
Proof.
  unfold known. induction h as [|e h IH]; cbn [knew existsb]; [by intros ->|]. assert (forall x, b0 || existsb shows h = true -> b0 || (x || existsb shows h) = true) as Hx.
  { intros x [ -> | -> ]%orb_true_iff; [done|]. by rewrite !orb_true_r. }
  destruct e as [j o|j o r|j x f c|j x]; auto. case_decide; auto.
Qed.
Lemma attempts_mono e h : (attempts h <= attempts (e :: h))%nat.
Proof. destruct e as [j [|? ? ? ? ?| |[]]| | |]; cbn; lia. Qed.
Lemma poss_mono s e : poss s -> poss (set_hist (e :: hist s) s).
Proof. unfold poss. cbn [hist set_hist]. pose proof (attempts_mono e (hist s)). intros [?|?]; [by left|right; lia]. Qed.
Lemma thr_hist s e j l : j <> actor e -> thr s j l -> thr (set_hist (e :: hist s) s) j l.
Proof.
  intros Hj. pose proof (attempts_mono e (hist s)) as Ha. pose proof (poss_mono s e) as Hp.
  destruct l; cbn [thr set_hist targets regs hist blocks canceled] in *; rewrite ?(made_other _ _ _ Hj), ?(knew_other _ _ _ Hj); try done.
  - intros (?&?&Hb). split_and!; [done..|]. intros E. destruct (Hb E). auto.
  - intros (?&?&?). auto.
  - intros (?&?). auto.
  - intros (?&?). auto.
  - intros (?&?&[?|?]); split_and!; auto. right. lia.
Qed.
Lemma wst_hist s e j l : j <> actor e -> notified (e :: hist s) = notified (hist s) -> wst s j l -> wst (set_hist (e :: hist s) s) j l.
Proof.
  intros Hj Hn. destruct l; cbn [wst]; unfold upto; cbn [set_hist targets regs hist]; rewrite ?(made_other _ _ _ Hj), ?Hn; try done.
  intros [? Hm]. split; [done|]. intros x Hx. apply Hm. by eapply must_other.
Qed.
Lemma one_winner s ls i j l lj : Inv s ls -> ls !! i = Some l -> winner l = true -> ls !! j = Some lj -> winner lj = true -> i = j.
Proof.
  intros HI Hi Hl Hj Hlj. destruct (decide (i = j)) as [|Hne]; [done|]. pose proof (cnt_two winner ls i j l lj Hne Hi Hj Hl Hlj) as Hc. pose proof (i_sum _ _ HI) as Hs. destruct (canceled s && negb b0); lia.
Qed.
(** Something happens that the record shows. *)
Lemma hist_move s ls i l l' e : Inv s ls -> ls !! i = Some l -> actor e = i -> reads l = reads l' -> (is_R2 l = false) ->
  handles (e :: hist s) ++ omap owns (<[i := l']> ls) ≡ₚ handles (hist s) ++ omap owns ls ->
  handles (e :: hist s) ++ omap linked (<[i := l']> ls) ≡ₚ handles (hist s) ++ omap linked ls ->
  (wins (e :: hist s) + Nat.b2n (winner l') = wins (hist s) + Nat.b2n (winner l))%nat ->
  (notified (e :: hist s) = notified (hist s) \/ winner l = true) ->
  (attempts (e :: hist s) + answers (hist s) + Nat.b2n (inC l) = attempts (hist s) + answers (e :: hist s) + Nat.b2n (inC l'))%nat ->
  (shows e = true -> canceled s = true) -> thr (set_hist (e :: hist s) s) i l' -> wst (set_hist (e :: hist s) s) i l' ->
  (forall x, x ∈ disposed (e :: hist s) -> x ∈ disposed (hist s) \/ (x ∈ tr <$> regs s /\ x ∉ tr <$> targets s)) ->
  (forall j x, (j, Some x) ∈ in_progress (e :: hist s) -> exists k t, <[i := l']> ls !! j = Some (D4 k t) /\ tr t = x) ->
  event_ok b0 (regs s) e (hist s) -> Inv (set_hist (e :: hist s) s) (<[i := l']> ls).
Proof.
  intros HI Hi He Hr H2 Ho Hl Hw Hn Ha Hk Ht Hws Hd Hp Hev. pose proof HI as []. pose proof (cnt_upd winner ls i l l' Hi) as Ew. pose proof (cnt_upd inC ls i l l' Hi) as Ec.
  split; cbn [set_hist canceled targets reading blocks fresh hist regs]; auto.
  - rewrite <-i_sum0. clear -Ew Hw. lia.
  - intros E. destruct Hn as [Hn|Hn]; [rewrite Hn; apply i_none0; clear -Ew Hw E; lia|]. exfalso. pose proof (cnt_pos winner ls i l Hi Hn). rewrite Hn in Ew, Hw. clear -Ew Hw E H. cbn [Nat.b2n] in Ew, Hw. lia.
  - clear -Ha Ec i_att0. lia.
  - unfold known in *. cbn. intros [Hb|[Hs|Hx]%orb_true_iff]%orb_true_iff; [apply i_known0; by rewrite Hb|auto|]. apply i_known0. rewrite Hx. apply orb_true_r.
  - apply (thr_upd (fun j lj => winner lj = true -> wst (set_hist (e :: hist s) s) j lj)); [done|]. intros j lj Hj Hne Hlj. apply wst_hist; [by rewrite He| |auto].
    destruct Hn as [Hn|Hn]; [done|]. destruct Hne. by eapply one_winner.
  - intros j. rewrite (who_same reads ls i l l' j Hi Hr). apply i_read0.
  - by rewrite Ho.
  - by rewrite Hl.
  - intros t Hin. destruct (i_field0 _ Hin) as [(j&f&c&Hj)|?]; [left|by right]. exists j, f, c. rewrite list_lookup_insert_ne; [done|]. intros <-. rewrite Hi in Hj. injection Hj as ->. done.
  - apply thr_upd; [done|]. intros j lj Hj Hne. apply thr_hist; [by rewrite He|auto].
  - intros x Hx. destruct (Hd _ Hx); auto.
  - by split.
Qed.
(** Nothing happens that the record shows. *)
Lemma quiet s s' ls i l l' : Inv s ls -> ls !! i = Some l -> hist s' = hist s -> canceled s' = canceled s -> winner l = winner l' -> inC l = inC l' -> is_D4 l = false ->
  (forall j, reading s' = Some j <-> if decide (j = i) then reads l' = true else reading s = Some j) ->
  elements (dom (blocks s')) ≡ₚ handles (hist s) ++ omap owns (<[i := l']> ls) ->
  tr <$> targets s' ≡ₚ handles (hist s) ++ omap linked (<[i := l']> ls) ->
  (forall t, t ∈ targets s' -> (exists i0 f c, <[i := l']> ls !! i0 = Some (R2 (tr t) (th t) f c)) \/ blocks s' !! tr t = Some (Some (th t))) ->
  (forall r, r ∈ dom (blocks s') -> (r < fresh s')%nat) -> (forall t, t ∈ regs s' -> (th t < fresh s')%nat /\ (tr t < fresh s')%nat) ->
  targets s' `sublist_of` regs s' -> regs s `prefix_of` regs s' -> NoDup (th <$> regs s') -> NoDup (tr <$> regs s') ->
  thr s' i l' -> wst s' i l' -> (forall j lj, ls !! j = Some lj -> j <> i -> thr s j lj -> thr s' j lj) -> (forall j lj, ls !! j = Some lj -> j <> i -> wst s j lj -> wst s' j lj) ->
  (forall x, x ∈ tr <$> regs s /\ x ∉ tr <$> targets s -> x ∈ tr <$> regs s' /\ x ∉ tr <$> targets s') -> Inv s' (<[i := l']> ls).
Proof.
  intros HI Hi Eh Ec Hw Hc Hd Hr Ho Hl Hf Hf1 Hf2 Hs Hp Hth Htr Ht Hws Hto Hwo Hg. pose proof HI as []. pose proof (cnt_same winner ls i l l' Hi Hw) as Ew. pose proof (cnt_same inC ls i l l' Hi Hc) as Ei.
  split; rewrite ?Eh, ?Ec, ?Ew, ?Ei; auto.
  - apply (thr_upd (fun j lj => winner lj = true -> wst s' j lj)); [done|]. intros j lj Hj Hne Hlj. eapply Hwo; eauto.
  - intros j. rewrite Hr, (who_upd reads ls i l l' j Hi). case_decide; [done|]. apply i_read0.
  - apply thr_upd; [done|]. intros j lj Hj Hne. eapply Hto; eauto.
  - intros j x Hx. destruct (i_prog0 _ _ Hx) as (k&t&Hj&Htr'). exists k, t. split; [|done]. rewrite list_lookup_insert_ne; [done|]. intros <-. rewrite Hi in Hj. injection Hj as ->. done.
  - by eapply all_ok_mono.
Qed.
Lemma same_read s ls i l l' : Inv s ls -> ls !! i = Some l -> reads l = reads l' -> forall j, reading s = Some j <-> if decide (j = i) then reads l' = true else reading s = Some j.
Proof. intros HI Hi Hr j. case_decide; [|done]. subst j. rewrite (i_read _ _ HI), <-Hr, Hi. naive_solver. Qed.
Lemma field_keep s ls i l l' : Inv s ls -> ls !! i = Some l -> is_R2 l = false -> forall t, t ∈ targets s -> (exists i0 f c, <[i := l']> ls !! i0 = Some (R2 (tr t) (th t) f c)) \/ blocks s !! tr t = Some (Some (th t)).
Proof.
  intros HI Hi H2 t Hin. destruct (i_field _ _ HI _ Hin) as [(j&f&c&Hj)|?]; [left|by right]. exists j, f, c. rewrite list_lookup_insert_ne; [done|]. intros <-. rewrite Hi in Hj. injection Hj as ->. done.
Qed.
Lemma stay s ls i l l' : Inv s ls -> ls !! i = Some l -> winner l = winner l' -> inC l = inC l' -> is_D4 l = false -> is_R2 l = false -> reads l = reads l' -> owns l = owns l' -> linked l = linked l' ->
  thr s i l' -> wst s i l' -> Inv s (<[i := l']> ls).
Proof.
  intros HI Hi Hw Hc Hd H2 Hr Ho Hl Ht Hws. pose proof HI as []. apply (quiet s s ls i l l'); auto.
  - by eapply same_read.
  - by rewrite (omap_upd0 owns ls i l l' Hi Ho).
  - by rewrite (omap_upd0 linked ls i l l' Hi Hl).
  - by eapply field_keep.
  - by destruct i_fresh0.
  - by destruct i_fresh0.
Qed.
Lemma wins_answers h : (wins h <= answers h)%nat.
Proof. induction h as [|e h IH]; [done|]. destruct e as [| j [| | |[]] [|[]|[]|]| |]; cbn; lia. Qed.
Lemma inC_cnt ls : cnt inC ls = (cnt winner ls + cnt loser ls)%nat.
Proof. apply cnt_sum. by intros []. Qed.
Lemma canceled_poss s ls : Inv s ls -> canceled s = true -> poss s.
Proof.
  intros HI Hc. unfold poss. destruct b0 eqn:Eb; [by left|right]. pose proof (i_sum _ _ HI) as Hs. rewrite Hc, Eb in Hs. cbn in Hs. pose proof (i_att _ _ HI) as Ha. pose proof (wins_answers (hist s)). pose proof (inC_cnt ls). lia.
Qed.
Lemma not_knew s ls i : Inv s ls -> canceled s = false -> knew b0 i (hist s) = false.
Proof. intros HI Hc. destruct (knew b0 i (hist s)) eqn:E; [|done]. apply knew_known in E. apply (i_known _ _ HI) in E. congruence. Qed.
Lemma prog_other s ls i l l' : Inv s ls -> ls !! i = Some l -> is_D4 l = false -> forall j x, (j, Some x) ∈ in_progress (hist s) -> exists k t, <[i := l']> ls !! j = Some (D4 k t) /\ tr t = x.
Proof.
  intros HI Hi Hd j x Hp. destruct (i_prog _ _ HI _ _ Hp) as (k&t&Hj&Hth). exists k, t. split; [|done]. rewrite list_lookup_insert_ne; [done|]. intros <-. rewrite Hi in Hj. injection Hj as ->. done.
Qed.
Lemma ret_ok i o r l : place o (Ret r) l -> reads l = false -> is_R2 l = false -> is_D4 l = false ->
  (forall s ls, Inv s ls -> ls !! i = Some l -> let e := Returned i o r in
    handles (e :: hist s) ++ omap owns (<[i := Out]> ls) ≡ₚ handles (hist s) ++ omap owns ls /\
    handles (e :: hist s) ++ omap linked (<[i := Out]> ls) ≡ₚ handles (hist s) ++ omap linked ls /\
    (wins (e :: hist s) = wins (hist s) + Nat.b2n (winner l))%nat /\
    (answers (hist s) + Nat.b2n (inC l) = answers (e :: hist s))%nat /\
    (shows e = true -> canceled s = true) /\
    (forall x, x ∈ disposed (e :: hist s) -> x ∈ disposed (hist s) \/ (x ∈ tr <$> regs s /\ x ∉ tr <$> targets s)) /\
    event_ok b0 (regs s) e (hist s)) ->
  runs i o (Ret r) l.
Proof.
  intros Hpl Hr H2 Hd H. apply wpa_ret; [done|]. intros s ls Hi HI. exists Out. split; [done|]. destruct (H _ _ HI Hi) as (H3&H4&H5&H6&H7&H8&H9). cbn [returns token].
  apply (hist_move s ls i l Out (Returned i o r)); try done.
  - cbn [winner Nat.b2n]. lia.
  - by left.
  - change (attempts (Returned i o r :: hist s)) with (attempts (hist s)). change (Nat.b2n (inC Out)) with 0%nat. lia.
  - by apply (prog_other _ _ _ _ _ HI Hi).
Qed.
(** Calls that return and leave nothing behind. *)
Lemma ret0_ok i o r l : place o (Ret r) l -> reads l = false -> is_R2 l = false -> is_D4 l = false -> owns l = None -> linked l = None -> winner l = false -> loser l = false ->
  (forall h, handles (Returned i o r :: h) = handles h) -> (forall h, disposed (Returned i o r :: h) = disposed h) -> match o with Cancel true => False | _ => True end ->
  (forall s ls, Inv s ls -> ls !! i = Some l -> (shows (Returned i o r) = true -> canceled s = true) /\ event_ok b0 (regs s) (Returned i o r) (hist s)) -> runs i o (Ret r) l.
Proof.
  intros Hpl Hr H2 Hd Ho Hl Hw Hlo Hh Hdi Hc H. apply ret_ok; try done. intros s ls HI Hi. destruct (H _ _ HI Hi) as [H3 H4]. cbv zeta. rewrite Hh, Hdi.
  rewrite (omap_upd0 owns ls i l Out Hi), (omap_upd0 linked ls i l Out Hi) by done. unfold inC. rewrite Hw, Hlo. cbn [Nat.b2n orb]. split_and!; auto.
  - destruct o as [| | |[]]; try done; cbn; lia.
  - destruct o as [| | |[]]; try done; cbn; lia.
Qed.
(** Errors. *)
Definition refused (o : op) (r : res) : Prop :=
  match o with
  | IsCanceled d => d = false /\ r = Bool false
  | Register d f c m1 m2 => d && negb (f =? 0) = false /\ r = Handle None
  | Dispose _ => False
  | Cancel d => d = false /\ r = Int 1
  end.
Lemma refused_ok i o r : refused o r -> runs i o (Ret r) N.
Proof.
  intros Hr. destruct o as [d|d f c m1 m2|x|d]; cbn in Hr; try done; destruct Hr as [Hd ->]; try subst d; apply ret0_ok; try done; intros s ls HI Hi; (split; [done|]); pose proof (i_thr _ _ HI _ _ Hi) as Ht; cbn in Ht |- *; try done.
  by rewrite Hd.
Qed.
Lemma is_canceled_ok i : runs i (IsCanceled true) (cancellation_token_is_canceled true) I0.
Proof.
  apply wpa_act; [shp|]. intros s ls Hi HI. cbn. exists (I1 (canceled s)). pose proof (i_thr _ _ HI _ _ Hi) as Ht. split.
  { apply (stay s ls i I0); try done. cbn. split_and!; [done| |].
    - intros Hk. apply (i_known _ _ HI). by eapply knew_known.
    - intros Hc. split; [|done]. by eapply canceled_poss. }
  generalize (canceled s) as b. clear. intros b. apply ret0_ok; try done. intros s ls HI Hi. pose proof (i_thr _ _ HI _ _ Hi) as (H1&H2&H3). split.
  - cbn. destruct b; [|done]. intros _. by apply H3.
  - cbn. split; [done|]. exists b. split_and!; [done..|]. intros Hb. apply H3 in Hb as [[|] _]; auto.
Qed.
Lemma free_ok s ls i r l l' : Inv s ls -> ls !! i = Some l -> owns l = Some r -> linked l = None -> owns l' = None -> linked l' = None -> winner l = winner l' -> inC l = inC l' -> is_D4 l = false -> is_R2 l = false ->
  reads l = reads l' -> thr s i l' -> wst s i l' -> (match l' with R1 _ _ _ => False | _ => True end) -> blocks s !! r <> None /\ Inv (set_blocks (delete r (blocks s)) s) (<[i := l']> ls).
Proof.
  intros HI Hi Ho Hl Ho' Hl' Hw Hc Hd H2 Hr Ht Hws HR1. pose proof HI as []. assert (r ∈ dom (blocks s)) as Hin. { apply elem_of_elements. rewrite i_own0, elem_of_app. right. by eapply omap_in. }
  pose proof (omap_lose owns ls i l l' r Hi Ho Ho') as El. assert (elements (dom (blocks s) ∖ {[r]}) ≡ₚ handles (hist s) ++ omap owns (<[i := l']> ls)) as Ed.
  { rewrite (elements_remove _ _ Hin), <-El, <-Permutation_middle in i_own0. by apply Permutation_cons_inv in i_own0. }
  assert (forall j lj r', ls !! j = Some lj -> j <> i -> owns lj = Some r' -> r' <> r) as Hne.
  { intros j lj r' Hj Hji Hoj ->. assert (r ∈ omap owns (<[i := l']> ls)) as Hr'. { eapply (omap_in _ _ j lj); [|done]. by rewrite list_lookup_insert_ne. }
    assert (r ∈ elements (dom (blocks s) ∖ {[r]})) as Hx by (rewrite Ed, elem_of_app; auto). apply elem_of_elements in Hx. set_solver. }
  split; [by apply elem_of_dom in Hin as [? ->]|]. apply (quiet s _ ls i l l'); cbn [set_blocks hist canceled reading targets blocks fresh regs]; auto.
  - by eapply same_read.
  - by rewrite dom_delete_L.
  - by rewrite (omap_upd0 linked ls i l l' Hi) by congruence.
  - intros t Hin'. destruct (field_keep _ _ _ _ l' HI Hi H2 t Hin') as [?|Hb]; [by left|right]. rewrite lookup_delete_ne; [done|]. intros ->.
    assert (tr t ∈ handles (hist s) ++ omap owns (<[i := l']> ls)) as Hx.
    { assert (tr t ∈ tr <$> targets s) as Hx by (by apply elem_of_list_fmap_1). rewrite i_link0 in Hx. rewrite <-(omap_upd0 linked ls i l l' Hi) in Hx by congruence.
      apply elem_of_app in Hx as [?|Hx]; apply elem_of_app; [by left|right]. apply elem_of_list_omap in Hx as (lj&?&Hlj). apply elem_of_list_omap. exists lj. split; [done|]. destruct lj; cbn in *; congruence. }
    rewrite <-Ed in Hx. apply elem_of_elements in Hx. set_solver.
  - rewrite dom_delete_L. intros r' Hr'. apply i_fresh0. set_solver.
  - by destruct i_fresh0.
  - clear -Ht HR1. by destruct l'.
  - intros j lj Hj Hji. destruct lj; try done. cbn. intros (?&?&?&?). split_and!; auto. rewrite lookup_delete_ne; [done|]. apply not_eq_sym. by eapply Hne.
Qed.

Lemma held_nodup s ls : Inv s ls -> NoDup (handles (hist s) ++ omap owns ls).
Proof. intros HI. rewrite <-(i_own _ _ HI). apply NoDup_elements. Qed.
Lemma owns_not s ls i l r : Inv s ls -> ls !! i = Some l -> owns l = Some r -> r ∉ handles (hist s).
Proof. intros HI Hi Ho Hin. pose proof (held_nodup _ _ HI) as (_&Hd&_)%NoDup_app. apply (Hd _ Hin). by eapply omap_in. Qed.
Lemma owns_ne s ls i l r j lj r' : Inv s ls -> ls !! i = Some l -> owns l = Some r -> ls !! j = Some lj -> j <> i -> owns lj = Some r' -> r' <> r.
Proof.
  intros HI Hi Ho Hj Hji Hoj ->. pose proof (held_nodup _ _ HI) as (_&_&Hd)%NoDup_app. pose proof (omap_lose owns ls i l Out r Hi Ho eq_refl) as El. rewrite <-El in Hd. apply NoDup_cons in Hd as [Hd _].
  apply Hd. eapply (omap_in _ _ j lj); [|done]. by rewrite list_lookup_insert_ne.
Qed.
Lemma owns_dom s ls i l r : Inv s ls -> ls !! i = Some l -> owns l = Some r -> is_Some (blocks s !! r).
Proof. intros HI Hi Ho. apply elem_of_dom, elem_of_elements. rewrite (i_own _ _ HI), elem_of_app. right. by eapply omap_in. Qed.
Lemma targets_tr s ls : Inv s ls -> NoDup (tr <$> targets s).
Proof. intros HI. eapply sublist_nodup; [apply fmap_sublist, HI|apply HI]. Qed.
Lemma targets_th s ls : Inv s ls -> NoDup (th <$> targets s).
Proof. intros HI. eapply sublist_nodup; [apply fmap_sublist, HI|apply HI]. Qed.
Lemma same_th s ls t t' : Inv s ls -> t ∈ targets s -> t' ∈ targets s -> th t = th t' -> t = t'.
Proof.
  intros HI [a Ha]%elem_of_list_lookup [b Hb]%elem_of_list_lookup E. pose proof (targets_th _ _ HI) as Hn. assert (a = b) as ->; [|congruence].
  eapply NoDup_lookup; [exact Hn|..]; rewrite list_lookup_fmap; [by rewrite Ha|by rewrite Hb, E].
Qed.
Lemma malloc_move s ls i f c (m2 : bool) : Inv s ls -> ls !! i = Some (Ra f c m2) ->
  Inv (Tok (canceled s) (targets s) (reading s) (<[fresh s := None]> (blocks s)) (S (fresh s)) (hist s) (regs s)) (<[i := if m2 then R1 (fresh s) f c else Rf (fresh s)]> ls).
Proof.
  intros HI Hi. pose proof HI as []. destruct i_fresh0 as [F1 F2]. assert (fresh s ∉ dom (blocks s)) as Hn by (intros Hin; apply F1 in Hin; lia).
  set (l' := if m2 then R1 (fresh s) f c else Rf (fresh s)). assert (owns l' = Some (fresh s) /\ linked l' = None /\ winner l' = false /\ inC l' = false /\ reads l' = false) as (Ho&Hl&Hw&Hc&Hr) by (by destruct m2).
  pose proof (i_thr0 _ _ Hi) as [Hm Hk]. apply (quiet s _ ls i (Ra f c m2) l'); cbn [hist canceled reading targets blocks fresh regs]; auto; try done.
  - eapply (same_read _ _ _ _ _ HI Hi). by rewrite Hr.
  - rewrite dom_insert_L, elements_union_singleton by done. rewrite i_own0, (omap_gain owns ls i _ l' _ Hi eq_refl Ho). by rewrite Permutation_middle.
  - rewrite (omap_upd0 linked ls i _ l' Hi); [done|by rewrite Hl].
  - intros t Hin. destruct (field_keep _ _ _ _ l' HI Hi eq_refl t Hin) as [?|Hb]; [by left|right]. rewrite lookup_insert_ne; [done|]. intros E. apply Hn. rewrite E. by eapply elem_of_dom_2.
  - rewrite dom_insert_L. intros r [->%elem_of_singleton|Hin]%elem_of_union; [lia|]. apply F1 in Hin. lia.
  - intros t Hin. destruct (F2 _ Hin). lia.
  - subst l'. destruct m2; cbn; split_and!; auto; [|by rewrite lookup_insert]. intros (t&E&Hin)%elem_of_list_fmap. destruct (F2 _ Hin). lia.
  - by destruct m2.
  - intros j lj Hj Hji. destruct lj; try done. cbn. intros (?&?&?&Hb). split_and!; auto. rewrite lookup_insert_ne; [done|]. intros E. apply Hn. rewrite E. by eapply elem_of_dom_2.
Qed.
Lemma register_move s ls i r f c : Inv s ls -> ls !! i = Some (R1 r f c) -> reading s = None ->
  Inv (Tok (canceled s) (targets s ++ [Target (fresh s) r f c]) None (blocks s) (S (fresh s)) (hist s) (regs s ++ [Target (fresh s) r f c])) (<[i := R2 r (fresh s) f c]> ls).
Proof.
  intros HI Hi Hrd. pose proof HI as []. destruct i_fresh0 as [F1 F2]. pose proof (i_thr0 _ _ Hi) as (Hm&Hk&Hnr&Hb). set (t := Target (fresh s) r f c).
  assert (forall j lj, ls !! j = Some lj -> reads lj = false) as Hnor. { intros j lj Hj. destruct (reads lj) eqn:E; [|done]. assert (reading s = Some j) as Hj' by (apply i_read0; eauto). congruence. }
  pose proof (owns_dom _ _ _ _ r HI Hi eq_refl) as Hd.
  apply (quiet s _ ls i (R1 r f c) (R2 r (fresh s) f c)); cbn [hist canceled reading targets blocks fresh regs]; auto; try done.
  - intros j. rewrite Hrd. case_decide; [|done]. by split.
  - by rewrite (omap_upd0 owns ls i _ (R2 r (fresh s) f c) Hi eq_refl).
  - rewrite fmap_app. cbn. rewrite i_link0, (omap_gain linked ls i _ (R2 r (fresh s) f c) r Hi eq_refl eq_refl). solve_Permutation.
  - intros t' [Hin| ->%elem_of_list_singleton]%elem_of_app; [by apply (field_keep _ _ _ _ _ HI Hi)|]. left. exists i, f, c. by eapply upd_at.
  - intros r' Hin. apply F1 in Hin. lia.
  - intros t' [Hin| ->%elem_of_list_singleton]%elem_of_app; [apply F2 in Hin; lia|]. cbn. apply elem_of_dom in Hd. apply F1 in Hd. lia.
  - by apply sublist_app.
  - by apply prefix_app_r.
  - rewrite fmap_app. apply NoDup_app. split_and!; [done| |apply NoDup_singleton]. intros x (t'&->&Hin)%elem_of_list_fmap E%elem_of_list_singleton. apply F2 in Hin. cbn in E. lia.
  - rewrite fmap_app. apply NoDup_app. split_and!; [done| |apply NoDup_singleton]. intros x Hin ->%elem_of_list_singleton. done.
  - cbn. split_and!; auto. apply elem_of_app. right. by left.
  - intros j lj Hj Hji Ht. destruct lj; try done; cbn in *.
    + destruct Ht as (?&?&?&?). split_and!; auto. rewrite fmap_app, not_elem_of_app. split; [done|]. cbn. rewrite elem_of_list_singleton. exact (owns_ne _ _ _ _ _ _ _ _ HI Hi eq_refl Hj Hji eq_refl).
    + destruct Ht as (?&?&?). split_and!; auto. apply elem_of_app. auto.
    + destruct Ht as (?&?&h&?). split_and!; auto. exists h. apply elem_of_app. auto.
    + destruct Ht as (?&f'&c'&?). split; auto. exists f', c'. apply elem_of_app. auto.
    + destruct Ht as (?&?&?). rewrite !fmap_app. split_and!; auto; [apply elem_of_app; auto|]. rewrite not_elem_of_app. split; [done|]. cbn. rewrite elem_of_list_singleton. exact (owns_ne _ _ _ _ _ _ _ _ HI Hi eq_refl Hj Hji eq_refl).
    + destruct Ht as (?&?&?). rewrite !fmap_app. split_and!; auto; [apply elem_of_app; auto|]. rewrite not_elem_of_app. split; [done|]. cbn. rewrite elem_of_list_singleton. naive_solver.
  - intros j lj Hj Hji Hws. pose proof (Hnor _ _ Hj) as Hr. destruct lj; try done; cbn in *. destruct Hws as [(l&?&?) ?]. split; [|done]. exists l. split; [done|]. by apply sublist_inserts_r.
  - intros x [Hx1 Hx2]. rewrite !fmap_app, elem_of_app, not_elem_of_app. split_and!; auto. cbn. rewrite elem_of_list_singleton. intros ->. done.
Qed.
Lemma handle_move s ls i r h f c : Inv s ls -> ls !! i = Some (R2 r h f c) -> Inv (set_blocks (<[r := Some h]> (blocks s)) s) (<[i := R3 r f c]> ls).
Proof.
  intros HI Hi. pose proof HI as []. destruct i_fresh0 as [F1 F2]. pose proof (i_thr0 _ _ Hi) as (Hm&Hk&Hin). pose proof (owns_dom _ _ _ _ r HI Hi eq_refl) as Hd. apply elem_of_dom in Hd as Hdom.
  assert (dom (<[r := Some h]> (blocks s)) = dom (blocks s)) as Edom by (rewrite dom_insert_L; set_solver).
  apply (quiet s _ ls i (R2 r h f c) (R3 r f c)); cbn [set_blocks hist canceled reading targets blocks fresh regs]; auto; try done.
  - by apply (same_read _ _ _ _ _ HI Hi).
  - rewrite Edom. by rewrite (omap_upd0 owns ls i _ (R3 r f c) Hi eq_refl).
  - by rewrite (omap_upd0 linked ls i _ (R3 r f c) Hi eq_refl).
  - intros t Ht. destruct (decide (tr t = r)) as [E|E].
    + right. rewrite E, lookup_insert. do 2 f_equal. pose proof (targets_tr _ _ HI) as Hn. apply elem_of_list_lookup in Ht as [a Ha], Hin as [b Hb]. assert (a = b) as ->; [|rewrite Ha in Hb; by injection Hb as ->].
      eapply NoDup_lookup; [exact Hn|..]; rewrite list_lookup_fmap; [by rewrite Ha|by rewrite Hb; cbn; rewrite E].
    + destruct (i_field0 _ Ht) as [(j&f'&c'&Hj)|Hb]; [left|right; by rewrite lookup_insert_ne]. exists j, f', c'. rewrite list_lookup_insert_ne; [done|]. intros <-. rewrite Hi in Hj. injection Hj as E1 _ _ _. by symmetry in E1.
  - rewrite Edom. done.
  - cbn. split_and!; auto. exists h. eapply sublist_in; [apply HI|done].
  - intros j lj Hj Hji. destruct lj; try done. cbn. intros (?&?&?&Hb). split_and!; auto. rewrite lookup_insert_ne; [done|]. apply not_eq_sym. exact (owns_ne _ _ _ _ _ _ _ _ HI Hi eq_refl Hj Hji eq_refl).
Qed.
Lemma register_ok i f c m1 m2 : f <> 0 -> runs i (Register true f c m1 m2) (cancellation_token_register_notify i true f c m1 m2) (R0 f c m1 m2).
Proof.
  intros Hf. unfold cancellation_token_register_notify. cbn [negb orb]. destruct (Z.eqb_spec f 0) as [|Hf']; [done|].
  apply wpa_act; [shp|]. intros s ls Hi HI. cbn. pose proof (i_thr _ _ HI _ _ Hi) as Ht. cbn in Ht. destruct (canceled s) eqn:Ec.
  { exists (Rc f c). split; [apply (stay s ls i (R0 f c m1 m2)); try done; cbn; split_and!; auto; by eapply canceled_poss|]. clear s ls Hi HI Ht Ec.
    apply wpa_act; [shp|]. intros s ls Hi HI. cbn. pose proof (i_thr _ _ HI _ _ Hi) as (Hm&Hc&Hp). exists (Rd f c). split.
    { apply (hist_move s ls i (Rc f c) (Rd f c) (Begins i None f c)); try done; cbn [handles].
      - by rewrite (omap_upd0 owns ls i _ (Rd f c) Hi eq_refl).
      - by rewrite (omap_upd0 linked ls i _ (Rd f c) Hi eq_refl).
      - by left.
      - cbn. rewrite decide_True by done. rewrite Hm. done.
      - intros x Hx. by left.
      - cbn [in_progress]. intros j x [E|Hx]%elem_of_cons; [done|]. by eapply (prog_other _ _ _ _ _ HI Hi). }
    clear s ls Hi HI Hm Hc Hp. apply wpa_act; [shp|]. intros s ls Hi HI. cbn. pose proof (i_thr _ _ HI _ _ Hi) as (Hm&Hp). exists (Re f c). split.
    { apply (hist_move s ls i (Rd f c) (Re f c) (Ends i None)); try done; cbn [handles].
      - by rewrite (omap_upd0 owns ls i _ (Re f c) Hi eq_refl).
      - by rewrite (omap_upd0 linked ls i _ (Re f c) Hi eq_refl).
      - by left.
      - intros x Hx. by left.
      - cbn [in_progress]. intros j x [_ Hx]%elem_of_list_filter. by eapply (prog_other _ _ _ _ _ HI Hi). }
    clear s ls Hi HI Hm Hp. apply ret0_ok; try done. intros s ls HI Hi. split; [done|]. pose proof (i_thr _ _ HI _ _ Hi) as (Hm&Hp). cbn. destruct (Z.eqb_spec f 0); [done|]. left. done. }
  pose proof (not_knew _ _ i HI Ec) as Hk. destruct m1; cbn [negb].
  2: { exists Rn. split; [by apply (stay s ls i (R0 f c false m2))|]. clear s ls Hi HI Ht Ec Hk. apply ret0_ok; try done. intros s ls HI Hi. split; [done|]. pose proof (i_thr _ _ HI _ _ Hi) as (Hm&Hp). cbn.
    destruct (Z.eqb_spec f 0); [done|]. right. done. }
  exists (Ra f c m2). split; [by apply (stay s ls i (R0 f c true m2))|]. clear s ls Hi HI Ht Ec Hk.
  apply wpa_act; [shp|]. intros s ls Hi HI. cbn. exists (if m2 then R1 (fresh s) f c else Rf (fresh s)). split; [by apply malloc_move|]. generalize (fresh s) as r. clear s ls Hi HI. intros r.
  destruct m2; cbn [negb].
  2: { apply wpa_act; [shp|]. intros s ls Hi HI. pose proof (i_thr _ _ HI _ _ Hi) as Ht. destruct (free_ok s ls i r (Rf r) Rn HI Hi) as [Hb HI']; try done. unfold free_registration. destruct (blocks s !! r); [|done].
    exists Rn. split; [done|]. clear s ls Hi HI Ht Hb HI'. apply ret0_ok; try done. intros s ls HI Hi. split; [done|]. pose proof (i_thr _ _ HI _ _ Hi) as (Hm&Hp). cbn.
    destruct (Z.eqb_spec f 0); [done|]. right. done. }
  apply wpa_act; [shp|]. intros s ls Hi HI. unfold register_target. destruct (reading s) as [j|] eqn:Er; [split; [done|by rewrite Er]|].
  exists (R2 r (fresh s) f c). split; [by apply register_move|]. generalize (fresh s) as h. clear s ls Hi HI Er. intros h.
  apply wpa_act; [shp|]. intros s ls Hi HI. unfold set_target_handle. destruct (owns_dom _ _ _ _ r HI Hi eq_refl) as [x ->]. exists (R3 r f c). split; [by apply handle_move|]. clear s ls Hi HI x.
  apply ret_ok; try done. { split_and!; [done..|]. intros r' E. injection E as <-. eauto. } intros s ls HI Hi. pose proof (i_thr _ _ HI _ _ Hi) as (Hm&Hk&h'&Hr). cbv zeta. cbn [handles disposed]. split_and!; try done.
  - pose proof (omap_lose owns ls i _ Out r Hi eq_refl eq_refl) as Ho. rewrite <-Ho. solve_Permutation.
  - pose proof (omap_lose linked ls i _ Out r Hi eq_refl eq_refl) as Ho. rewrite <-Ho. solve_Permutation.
  - intros x Hx. by left.
  - cbn. destruct (Z.eqb_spec f 0); [done|]. right. split_and!; auto. exists h', r. split_and!; auto. by eapply owns_not.
Qed.

Lemma filter_th_tr (l : list target) t : NoDup (th <$> l) -> NoDup (tr <$> l) -> t ∈ l -> tr <$> l ≡ₚ tr t :: (tr <$> filter (fun u => th u ≠ th t) l).
Proof.
  induction l as [|u l IH]; [by intros _ _ ?%elem_of_nil|]. rewrite !fmap_cons. intros [Hn Hd]%NoDup_cons [Hn' Hd']%NoDup_cons Hin. rewrite filter_cons. destruct (decide (th u = th t)) as [E|E].
  - rewrite decide_False by naive_solver. apply elem_of_cons in Hin as [->|Hin]; [|destruct Hn; rewrite E; by apply elem_of_list_fmap_1].
    rewrite filter_id; [done|]. intros x Hx Ex. apply Hn. rewrite <-Ex. by apply elem_of_list_fmap_1.
  - rewrite decide_True by done. apply elem_of_cons in Hin as [->|Hin]; [done|]. rewrite fmap_cons, (IH Hd Hd' Hin). apply Permutation_swap.
Qed.
Lemma unregister_move s ls i r h : Inv s ls -> ls !! i = Some (U1 r h) -> reading s = None ->
  h ∈ th <$> targets s /\ Inv (Tok (canceled s) (filter (fun t => th t ≠ h) (targets s)) None (blocks s) (fresh s) (hist s) (regs s)) (<[i := U2 r]> ls).
Proof.
  intros HI Hi Hrd. pose proof HI as []. pose proof (i_thr0 _ _ Hi) as (Hm&f&c&Hin). assert (h ∈ th <$> targets s) as Hh. { apply elem_of_list_fmap. by exists (Target h r f c). } split; [done|].
  pose proof (filter_th_tr _ _ (targets_th _ _ HI) (targets_tr _ _ HI) Hin) as Hp. cbn in Hp.
  pose proof (targets_tr _ _ HI) as Hnd. rewrite Hp in Hnd. apply NoDup_cons in Hnd as [Hnd _].
  assert (forall t, t ∈ filter (fun t => th t ≠ h) (targets s) -> t ∈ targets s) as Hsub by (intros t [_ ?]%elem_of_list_filter; done).
  assert (forall x, x ∉ tr <$> targets s -> x ∉ tr <$> filter (fun t => th t ≠ h) (targets s)) as Hsub'. { intros x Hx Hin'. apply Hx. rewrite Hp. by right. }
  assert (forall j lj, ls !! j = Some lj -> reads lj = false) as Hnor. { intros j lj Hj. destruct (reads lj) eqn:E; [|done]. assert (reading s = Some j) as Hj' by (apply i_read0; eauto). congruence. }
  apply (quiet s _ ls i (U1 r h) (U2 r)); cbn [hist canceled reading targets blocks fresh regs]; auto; try done.
  - intros j. rewrite Hrd. case_decide; [|done]. by split.
  - by rewrite (omap_upd0 owns ls i _ (U2 r) Hi eq_refl).
  - pose proof (omap_lose linked ls i _ (U2 r) r Hi eq_refl eq_refl) as Ho. rewrite Hp, <-Ho, <-Permutation_middle in i_link0. by apply Permutation_cons_inv in i_link0.
  - intros t Ht. apply (field_keep _ _ _ _ _ HI Hi eq_refl). auto.
  - apply i_fresh0.
  - apply i_fresh0.
  - etrans; [apply filter_sublist|done].
  - cbn. split_and!; auto. eapply sublist_in; [apply fmap_sublist, i_sub0|]. apply elem_of_list_fmap. by exists (Target h r f c).
  - intros j lj Hj Hji Ht. destruct lj as [| | |b|? ? ? ?|? ?|? ?|? ?|? ? ?| |r' ? ?|r'|r' h' f' c'|r' ? ?|r'|r' h'|r'|r'| | | |?|? ?|? ?| |]; try done; cbn in *.
    + destruct Ht as (?&?&?). split_and!; auto. apply elem_of_list_filter. split; [|done]. cbn. intros ->.
      assert (r' <> r) as Hne by exact (owns_ne _ _ _ _ _ _ _ _ HI Hi eq_refl Hj Hji eq_refl). apply Hne. pose proof (same_th _ _ (Target h r' f' c') (Target h r f c) HI ltac:(done) Hin eq_refl) as E. by injection E.
    + destruct Ht as (?&f'&c'&?). split; [done|]. exists f', c'. apply elem_of_list_filter. split; [|done]. cbn. intros ->.
      assert (r' <> r) as Hne by exact (owns_ne _ _ _ _ _ _ _ _ HI Hi eq_refl Hj Hji eq_refl). apply Hne. pose proof (same_th _ _ (Target h r' f' c') (Target h r f c) HI ltac:(done) Hin eq_refl) as E. by injection E.
    + destruct Ht as (?&?&?). auto.
    + destruct Ht as (?&?&?). auto.
  - intros j lj Hj Hji Hws. pose proof (Hnor _ _ Hj) as Hr. by destruct lj.
  - intros x []. auto.
Qed.
Lemma disposed_ok i r : runs i (Dispose r) (Ret Void) (U3 r).
Proof.
  apply ret_ok; try done. intros s ls HI Hi. pose proof (i_thr _ _ HI _ _ Hi) as (Hm&Hr1&Hr2). cbv zeta. cbn [handles disposed]. split_and!; try done.
  - by rewrite (omap_upd0 owns ls i _ Out Hi eq_refl).
  - by rewrite (omap_upd0 linked ls i _ Out Hi eq_refl).
  - intros x [->|?]%elem_of_cons; auto.
  - cbn. split_and!; auto. intros j Hp. destruct (i_prog _ _ HI _ _ Hp) as (k&t&Hj&<-). destruct (i_win _ _ HI _ _ Hj eq_refl) as [_ Hk]. apply Hr2. apply elem_of_list_fmap_1. by eapply elem_of_list_lookup_2.
Qed.
Lemma dispose_ok i r : runs i (Dispose r) (cancellation_token_registration_dispose r) (U0 r).
Proof.
  apply wpa_act; [shp|]. intros s ls Hi HI. pose proof (i_thr _ _ HI _ _ Hi) as Ht. cbn in Ht.
  assert (r ∈ tr <$> targets s) as (t&->&Hin)%elem_of_list_fmap. { rewrite (i_link _ _ HI), elem_of_app. right. by eapply omap_in. }
  assert (blocks s !! tr t = Some (Some (th t))) as Hb.
  { destruct (i_field _ _ HI _ Hin) as [(j&f&c&Hj)|?]; [|done]. destruct (decide (j = i)) as [->|Hji]; [by rewrite Hi in Hj|]. destruct (owns_ne _ _ _ _ _ _ _ _ HI Hi eq_refl Hj Hji eq_refl). done. }
  unfold get_target_handle. rewrite Hb. exists (U1 (tr t) (th t)). split.
  { apply (stay s ls i (U0 (tr t))); try done. cbn. split; [done|]. exists (tf t), (tc t). by destruct t. }
  generalize (tr t) as r, (th t) as h. clear. intros r h. apply wpa_act; [shp|]. intros s ls Hi HI. unfold unregister_target. destruct (reading s) as [j|] eqn:Er; [split; [done|by rewrite Er]|].
  destruct (unregister_move _ _ _ _ _ HI Hi Er) as [Hin HI']. rewrite decide_True by done. exists (U2 r). split; [done|]. clear s ls Hi HI Er Hin HI'.
  apply wpa_act; [shp|]. intros s ls Hi HI. pose proof (i_thr _ _ HI _ _ Hi) as Ht. destruct (free_ok s ls i r (U2 r) (U3 r) HI Hi) as [Hb HI']; try done. unfold free_registration. destruct (blocks s !! r); [|done].
  exists (U3 r). split; [done|]. apply disposed_ok.
Qed.

Lemma cas_move s ls i : Inv s ls -> ls !! i = Some C0 -> canceled s = false -> b0 = false /\ Inv (Tok true (targets s) (reading s) (blocks s) (fresh s) (hist s) (regs s)) (<[i := C1]> ls).
Proof.
  intros HI Hi Hc. pose proof HI as []. assert (b0 = false) as Hb. { destruct b0 eqn:E; [|done]. rewrite i_known0 in Hc; [done|]. done. } split; [done|].
  pose proof (cnt_upd winner ls i C0 C1 Hi) as Ew. pose proof (cnt_same inC ls i C0 C1 Hi eq_refl) as Ei. cbn in Ew. rewrite Hc in i_sum0. cbn in i_sum0. pose proof (i_thr0 _ _ Hi) as Ht. cbn in Ht.
  split; cbn [hist canceled reading targets blocks fresh regs]; auto.
  - rewrite Hb. cbn. lia.
  - lia.
  - apply (thr_upd (fun j lj => winner lj = true -> wst _ j lj)); [|intros j lj Hj _; exact (i_win0 j lj Hj)]. intros _. cbn. split; [done|]. apply i_none0. lia.
  - intros j. rewrite (who_same reads ls i C0 C1 j Hi eq_refl). apply i_read0.
  - by rewrite (omap_upd0 owns ls i _ C1 Hi eq_refl).
  - by rewrite (omap_upd0 linked ls i _ C1 Hi eq_refl).
  - by apply (field_keep _ _ _ _ _ HI Hi).
  - apply thr_upd; [cbn; by eapply not_knew|]. intros j lj Hj _. specialize (i_thr0 _ _ Hj). destruct lj; try done; cbn in *; naive_solver.
  - by apply (prog_other _ _ _ _ _ HI Hi).
Qed.
Lemma winner_canceled s ls i l : Inv s ls -> ls !! i = Some l -> winner l = true -> canceled s = true /\ b0 = false /\ wins (hist s) = 0%nat.
Proof.
  intros HI Hi Hw. pose proof (cnt_pos winner ls i l Hi Hw). pose proof (i_sum _ _ HI) as Hs. destruct (canceled s), b0; cbn in *; split_and!; lia || done.
Qed.
Lemma set_reading_move s ls i l l' rd : Inv s ls -> ls !! i = Some l -> winner l = winner l' -> inC l = inC l' -> is_D4 l = false -> is_R2 l = false -> owns l = owns l' -> linked l = linked l' ->
  (forall j, rd = Some j <-> if decide (j = i) then reads l' = true else reading s = Some j) ->
  thr s i l' -> wst s i l' -> Inv (set_reading rd s) (<[i := l']> ls).
Proof.
  intros HI Hi Hw Hc Hd H2 Ho Hl Hr Ht Hws. pose proof HI as []. apply (quiet s _ ls i l l'); cbn [set_reading hist canceled reading targets blocks fresh regs]; auto.
  - by rewrite (omap_upd0 owns ls i l l' Hi Ho).
  - by rewrite (omap_upd0 linked ls i l l' Hi Hl).
  - by eapply field_keep.
  - by destruct i_fresh0.
  - by destruct i_fresh0.
Qed.
Lemma reading_is s ls i l : Inv s ls -> ls !! i = Some l -> reads l = true -> reading s = Some i.
Proof. intros HI Hi Hr. apply (i_read _ _ HI). eauto. Qed.
Lemma loop_ok i k : runs i (Cancel true) (dispatch_loop i k) (D k).
Proof.
  eapply wp_loop with (A := fun p l => exists k, p = dispatch_loop i k /\ l = D k); [|apply wpa_again; by eauto]. clear k. intros p l (k&->&->). rewrite (frob_eq (dispatch_loop i k)). cbn [frob dispatch_loop].
  split; [shp|]. intros s ls Hi HI. pose proof (i_thr _ _ HI _ _ Hi) as Ht. pose proof (i_win _ _ HI _ _ Hi eq_refl) as Hw. cbn in Ht, Hw. unfold dispatch_nth. rewrite decide_True by (by eapply reading_is).
  destruct (targets s !! k) as [t|] eqn:Ek.
  - exists (Da k t). split; [by apply (stay s ls i (D k))|]. clear s ls Hi HI Ht Hw Ek.
    apply wpa_act; [shp|]. intros s ls Hi HI. pose proof (i_thr _ _ HI _ _ Hi) as Ht. destruct (i_win _ _ HI _ _ Hi eq_refl) as [[Hm Hn] Ek]. cbn in Ht. destruct (winner_canceled _ _ _ _ HI Hi eq_refl) as (Hc&_&_).
    assert (t ∈ targets s) as Hin by (by eapply elem_of_list_lookup_2).
    exists (D4 k t). split.
    { apply (hist_move s ls i (Da k t) (D4 k t) (Begins i (Some (tr t)) (tf t) (tc t))); try done; cbn [handles].
      - by rewrite (omap_upd0 owns ls i _ (D4 k t) Hi eq_refl).
      - by rewrite (omap_upd0 linked ls i _ (D4 k t) Hi eq_refl).
      - by right.
      - cbn [wst]. split; [|done]. unfold upto. cbn [hist set_hist targets made notified]. rewrite decide_True by done. rewrite Hm, Hn, (take_S_r _ _ _ Ek), !fmap_app, reverse_app. done.
      - intros x Hx. by left.
      - cbn [in_progress]. intros j x [E|Hx]%elem_of_cons; [|by eapply (prog_other _ _ _ _ _ HI Hi)]. injection E as -> ->. exists k, t. split; [|done]. by eapply upd_at.
      - cbn. split_and!.
        + rewrite Hn, elem_of_reverse. pose proof (targets_tr _ _ HI) as Hnd. rewrite <-(take_drop_middle _ _ _ Ek), fmap_app in Hnd. apply NoDup_app in Hnd as (_&Hd&_). intros Hx. apply (Hd _ Hx). by left.
        + intros Hx. destruct (i_gone _ _ HI _ Hx) as [_ Hx']. apply Hx'. by apply elem_of_list_fmap_1.
        + exists (th t). eapply sublist_in; [apply HI|]. by destruct t. }
    clear s ls Hi HI Ht Hm Hn Ek Hin Hc. apply wpa_act; [shp|]. intros s ls Hi HI. pose proof (i_thr _ _ HI _ _ Hi) as Ht. destruct (i_win _ _ HI _ _ Hi eq_refl) as [[Hm Hn] Ek]. cbn in Ht.
    exists (D (S k)). split.
    { apply (hist_move s ls i (D4 k t) (D (S k)) (Ends i (Some (tr t)))); try done; cbn [handles].
      - by rewrite (omap_upd0 owns ls i _ (D (S k)) Hi eq_refl).
      - by rewrite (omap_upd0 linked ls i _ (D (S k)) Hi eq_refl).
      - by left.
      - intros x Hx. by left.
      - cbn [in_progress]. intros j x [Hne Hx]%elem_of_list_filter. destruct (i_prog _ _ HI _ _ Hx) as (k'&t'&Hj&<-). exists k', t'. split; [|done]. rewrite list_lookup_insert_ne; [done|]. intros <-. rewrite Hi in Hj. by simplify_eq. }
    apply wpa_again. eauto.
  - assert (upto s i (length (targets s))) as Hu. { apply lookup_ge_None in Ek. unfold upto in *. rewrite firstn_all. by rewrite (take_ge _ k) in Hw by done. }
    exists D6. split; [by apply (stay s ls i (D k))|]. clear s ls Hi HI Ht Hw Ek Hu.
    apply wpa_act; [shp|]. intros s ls Hi HI. pose proof (i_thr _ _ HI _ _ Hi) as Ht. destruct (i_win _ _ HI _ _ Hi eq_refl) as [Hm Hn]. cbn in Ht. rewrite firstn_all in Hm, Hn.
    pose proof (reading_is _ _ _ _ HI Hi eq_refl) as Hr. unfold dispatch_end. rewrite decide_True by done. exists D7. split.
    { apply (set_reading_move s ls i D6 D7); try done.
      - intros j. case_decide; [done|]. split; [done|]. rewrite Hr. naive_solver.
      - cbn. split; [exists (targets s); split; [done|apply HI]|]. intros x Hx. apply must_handles in Hx. rewrite Hn, elem_of_reverse, (i_link _ _ HI). apply elem_of_app. by left. }
    clear s ls Hi HI Ht Hm Hn Hr. apply wpa_weaken. apply ret_ok; try done. intros s ls HI Hi. pose proof (i_thr _ _ HI _ _ Hi) as Ht. destruct (i_win _ _ HI _ _ Hi eq_refl) as [Hm Hn]. cbn in Ht.
    destruct (winner_canceled _ _ _ _ HI Hi eq_refl) as (Hc&Hb&Hw). cbv zeta. cbn [handles disposed]. split_and!; try done.
    + by rewrite (omap_upd0 owns ls i _ Out Hi eq_refl).
    + by rewrite (omap_upd0 linked ls i _ Out Hi eq_refl).
    + cbn. lia.
    + cbn. lia.
    + intros x Hx. by left.
    + cbn. left. split_and!; auto.
Qed.
Lemma cancel_ok i : runs i (Cancel true) (cancellation_token_cancel i true) C0.
Proof.
  apply wpa_act; [shp|]. intros s ls Hi HI. pose proof (i_thr _ _ HI _ _ Hi) as Ht. cbn in Ht. cbn. destruct (canceled s) eqn:Ec.
  - exists CF. split.
    { assert (Tok true (targets s) (reading s) (blocks s) (fresh s) (hist s) (regs s) = s) as -> by (destruct s; cbn in *; by subst).
      apply (stay s ls i C0); try done. cbn. split_and!; auto. destruct b0 eqn:Eb; [by left|right]. pose proof (i_sum _ _ HI) as Hs. rewrite Ec, Eb in Hs. cbn in Hs. pose proof (i_att _ _ HI) as Ha.
      pose proof (wins_answers (hist s)). pose proof (inC_cnt ls). pose proof (cnt_pos loser ls i C0 Hi eq_refl). lia. }
    clear s ls Hi HI Ht Ec. apply ret_ok; try done. intros s ls HI Hi. pose proof (i_thr _ _ HI _ _ Hi) as (Hm&Hc&Ha). cbv zeta. cbn [handles disposed]. split_and!; try done.
    + by rewrite (omap_upd0 owns ls i _ Out Hi eq_refl).
    + by rewrite (omap_upd0 linked ls i _ Out Hi eq_refl).
    + cbn. lia.
    + intros x Hx. by left.
    + cbn. right. done.
  - destruct (cas_move _ _ _ HI Hi Ec) as [Hb HI']. exists C1. split; [done|]. clear s ls Hi HI Ht Ec HI'.
    apply wpa_act; [shp|]. intros s ls Hi HI. pose proof (i_thr _ _ HI _ _ Hi) as Ht. pose proof (i_win _ _ HI _ _ Hi eq_refl) as Hw. cbn in Ht, Hw. unfold dispatch_begin.
    assert (reading s = None) as Er. { destruct (reading s) as [j|] eqn:Er; [|done]. apply (i_read _ _ HI) in Er as (lj&Hj&Hrj). assert (i = j) as <-. { eapply one_winner; [done|exact Hi|done|exact Hj|]. by destruct lj. } rewrite Hi in Hj. by injection Hj as <-. }
    rewrite Er. exists (D 0). split; [|apply loop_ok]. apply (set_reading_move s ls i C1 (D 0)); try done.
    intros j. rewrite Er. case_decide; [by subst|]. naive_solver.
Qed.
Lemma dispose_call i r s ls : ls !! i = Some Out -> Inv s ls -> r ∈ handles (hist s) -> Inv (set_hist (Called i (Dispose r) :: hist s) s) (<[i := U0 r]> ls).
Proof.
  intros Hi HI Hm. assert (forall h, made i (Called i (Dispose r) :: h) = []) as Hma by (intros h; cbn; by rewrite decide_True). pose proof (held_nodup _ _ HI) as (Hnd&_&_)%NoDup_app. pose proof (filter_perm _ _ Hnd Hm) as Hp.
  apply (hist_move s ls i Out (U0 r) (Called i (Dispose r))); try done; cbn [handles].
  - rewrite (omap_gain owns ls i _ (U0 r) r Hi eq_refl eq_refl). rewrite Hp at 2. by rewrite <-Permutation_middle.
  - rewrite (omap_gain linked ls i _ (U0 r) r Hi eq_refl eq_refl). rewrite Hp at 2. by rewrite <-Permutation_middle.
  - by left.
  - apply Hma.
  - intros x Hx. by left.
  - by apply (prog_other _ _ _ _ _ HI Hi).
Qed.
Lemma call_ok i o s s' ls l : ls !! i = Some l -> l = Out -> Inv s ls -> calls token i o s = Some s' -> exists l', Inv s' (<[i := l']> ls) /\ runs i o (code token i o) l'.
Proof.
  intros Hi -> HI. cbn [calls token]. destruct (may_call o (hist s)) eqn:Hm; [|done]. intros [= <-].
  assert (forall l', reads l' = false -> owns l' = None -> linked l' = None -> winner l' = false -> handles (Called i o :: hist s) = handles (hist s) -> attempts (Called i o :: hist s) = (attempts (hist s) + Nat.b2n (inC l'))%nat ->
    thr (set_hist (Called i o :: hist s) s) i l' -> wst (set_hist (Called i o :: hist s) s) i l' -> Inv (set_hist (Called i o :: hist s) s) (<[i := l']> ls)) as Hgo.
  { intros l' Hr Ho Hl Hw Hh Ha Ht Hws. apply (hist_move s ls i Out l' (Called i o)); try done.
    - rewrite Hh. by rewrite (omap_upd0 owns ls i _ l' Hi).
    - rewrite Hh. by rewrite (omap_upd0 linked ls i _ l' Hi).
    - rewrite Hw. done.
    - by left.
    - rewrite Ha. cbn. lia.
    - intros x Hx. by left.
    - by apply (prog_other _ _ _ _ _ HI Hi). }
  assert (forall h, made i (Called i o :: h) = []) as Hma by (intros h; cbn; by rewrite decide_True).
  destruct o as [[]|d f c m1 m2|r|[]]; cbn [code token].
  - exists I0. split; [|apply is_canceled_ok]. apply Hgo; try done; try apply Hma; cbn; lia.
  - exists N. split; [|by apply refused_ok]. apply Hgo; try done; try apply Hma; cbn; lia.
  - destruct (d && negb (f =? 0)) eqn:E.
    + apply andb_true_iff in E as [-> Hf]. apply negb_true_iff, Z.eqb_neq in Hf. exists (R0 f c m1 m2). split; [|by apply register_ok]. apply Hgo; try done; try apply Hma; cbn; lia.
    + exists N. assert (cancellation_token_register_notify i d f c m1 m2 = Ret (Handle None)) as ->. { unfold cancellation_token_register_notify. by destruct d, (f =? 0). }
      split; [|by apply refused_ok]. apply Hgo; try done; try apply Hma; cbn; lia.
  - cbn in Hm. apply bool_decide_eq_true in Hm. exists (U0 r). split; [by apply dispose_call|apply dispose_ok].
  - exists C0. split; [|apply cancel_ok]. apply Hgo; try done; try apply Hma; cbn; lia.
  - exists N. split; [|by apply refused_ok]. apply Hgo; try done; try apply Hma; cbn; lia.
Qed.
Lemma init_ok n : Inv (Tok b0 [] None ∅ 0 [] []) (replicate n Out).
Proof.
  split; cbn; try done.
  - rewrite cnt_replicate by done. by destruct b0.
  - by rewrite cnt_replicate.
  - unfold known. cbn. by rewrite orb_false_r.
  - intros i l Hl. apply lookup_replicate in Hl as [-> _]. done.
  - intros i. split; [done|]. intros (l&Hl&Hx). apply lookup_replicate in Hl as [-> _]. done.
  - rewrite omap_replicate by done. by rewrite dom_empty_L, elements_empty.
  - by rewrite omap_replicate.
  - intros t ?%elem_of_nil. done.
  - rewrite dom_empty_L. split; [set_solver|]. by intros t ?%elem_of_nil.
  - apply NoDup_nil_2.
  - apply NoDup_nil_2.
  - intros i l Hl. apply lookup_replicate in Hl as [-> _]. done.
  - by intros h ?%elem_of_nil.
  - by intros i h ?%elem_of_nil.
Qed.
Lemma reach m1 m2 s0 n c : cancellation_token_create b0 m1 m2 = Some s0 -> reachable token s0 n c -> conf_ok token Inv (.= Out) blk shape c.
Proof.
  intros Hc. assert (s0 = Tok b0 [] None ∅ 0 [] []) as ->. { unfold cancellation_token_create in Hc. destruct m1, m2; cbn in Hc; try done. by destruct b0; injection Hc as <-. }
  eapply (reach_ok token Inv (.= Out) blk shape) with (l0 := Out); [exact call_ok|done|done|apply init_ok].
Qed.
Section reached.
Context (m1 m2 : bool) (s0 : tok) (n : nat) (c : tok * list (thread tok op res)) (Hcr : cancellation_token_create b0 m1 m2 = Some s0) (Hr : reachable token s0 n c).
Lemma history later e before : hist c.1 = later ++ e :: before -> event_ok b0 (regs c.1) e before.
Proof. intros Hh. destruct (reach _ _ _ _ _ Hcr Hr) as (ls&_&HI&_). pose proof (i_ev _ _ HI) as Ha. rewrite Hh in Ha. by eapply all_ok_at. Qed.
Lemma order_nodup : NoDup (tr <$> regs c.1).
Proof. destruct (reach _ _ _ _ _ Hcr Hr) as (ls&_&HI&_). apply HI. Qed.
Lemma no_crash i : ~ crashed c i.
Proof. eapply ok_no_crash, reach; eauto. Qed.
Lemma step_ok c' : step token c c' ->
  (canceled c.1 = true -> canceled c'.1 = true) /\
  (regs c'.1 = regs c.1 \/ exists i f x m1 m2 p h r, c.2 !! i = Some (Running (Register true f x m1 m2) p) /\ regs c'.1 = regs c.1 ++ [Target h r f x]).
Proof.
  intros Hs. destruct (reach _ _ _ _ _ Hcr Hr) as (ls&Hlen&HI&Hts). destruct Hs as [s ts i o s' Hi Hc|s ts i o X m k x s' Hi Hm|s ts i o r Hi|s ts s' []]; cbn [fst snd] in *.
  - cbn in Hc. destruct (may_call o (hist s)); [|done]. injection Hc as <-. auto.
  - assert (exists l, ls !! i = Some l) as [l Hl] by (apply lookup_lt_is_Some_2; rewrite Hlen; by eapply lookup_lt_Some). pose proof (ok_shape _ _ _ _ _ _ _ _ _ (Hts _ _ _ Hi Hl)) as [Hsh _]. cbn in Hsh.
    destruct (Hsh _ _ _ Hm) as (Hc&_&[|(f&x'&a1&a2&h&r&->&E)]); [by auto|]. split; [done|]. right. eauto 12.
  - auto.
Qed.
Lemma no_deadlock i : blocked c i -> exists (j : nat) (o : op) (p : prog tok res), c.2 !! j = Some (Running o p) /\ ~ blocked c j.
Proof.
  intros Hb. destruct (reach _ _ _ _ _ Hcr Hr) as (ls&Hlen&HI&Hts). destruct (ok_blocked _ _ _ _ _ _ _ _ Hlen HI Hts Hb) as (l&Hl&_&Hrd).
  destruct (reading c.1) as [j|] eqn:E; [|done]. apply (i_read _ _ HI) in E as (lj&Hj&Hlj).
  assert (exists t, c.2 !! j = Some t) as [t Ht] by (apply lookup_lt_is_Some_2; rewrite <-Hlen; by eapply lookup_lt_Some).
  pose proof (Hts _ _ _ Ht Hj) as Hok. destruct t as [|o p]; [cbn in Hok; by subst lj|]. exists j, o, p. split; [done|]. intros Hbj.
  destruct (ok_blocked _ _ _ _ _ _ _ _ Hlen HI Hts Hbj) as (l'&Hl'&Hx&_). rewrite Hj in Hl'. simplify_eq. congruence.
Qed.
Lemma memory : (forall j t, c.2 !! j = Some t -> t = Idle) -> elements (dom (blocks c.1)) ≡ₚ handles (hist c.1) /\ tr <$> targets c.1 ≡ₚ handles (hist c.1).
Proof.
  intros Hid. destruct (reach _ _ _ _ _ Hcr Hr) as (ls&Hlen&HI&Hts). assert (forall j l, ls !! j = Some l -> l = Out) as Hall.
  { intros j l Hj. assert (exists t, c.2 !! j = Some t) as [t Ht] by (apply lookup_lt_is_Some_2; rewrite <-Hlen; by eapply lookup_lt_Some). specialize (Hts _ _ _ Ht Hj). by rewrite (Hid _ _ Ht) in Hts. }
  rewrite (i_own _ _ HI), (i_link _ _ HI). rewrite !omap_none, !app_nil_r; [done|..]; intros j l Hj; by rewrite (Hall _ _ Hj).
Qed.
Lemma notified_nodup : NoDup (notified (hist c.1)).
Proof.
  destruct (reach _ _ _ _ _ Hcr Hr) as (ls&_&HI&_). pose proof (i_ev _ _ HI) as Ha. induction (hist c.1) as [|e h IH]; [apply NoDup_nil_2|]. destruct Ha as [He Ha]. destruct e as [| |j [x|] f y|]; cbn [notified]; auto.
  destruct He as (?&?&?). apply NoDup_cons. auto.
Qed.
Lemma notified_exactly i before later x : hist c.1 = later ++ Returned i (Cancel true) (Int 0) :: before -> x ∈ must i before -> x ∈ notified (hist c.1) /\ NoDup (notified (hist c.1)).
Proof.
  intros Hh Hx. split; [|apply notified_nodup]. pose proof (history _ _ _ Hh) as He. cbn in He. destruct He as [(_&_&_&_&_&Hm)|(?&_)]; [|done]. specialize (Hm _ Hx). rewrite Hh. clear -Hm.
  induction later as [|e h IH]; [done|]. destruct e as [| |j [y|] f z|]; cbn; auto. by right.
Qed.
End reached.
End b0.
