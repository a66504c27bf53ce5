(** Proofs about the dispatcher of thread notifications: calls, answers, what is reachable. *)
From Verif Require Import Common Prog Conc ConcLists TndModel TndSpec TndProofs.
Local Open Scope Z_scope.

Section calls.
Context (i : nat) (s : tnd) (ls : list pc).
Context (HI : Inv s ls).
Ltac hm e l l' Hi := eapply (hist_move s _ ls i l l' e); [exact HI|exact Hi|reflexivity|first [reflexivity|exact I]|..]; fields.
Ltac getk Hi := pose proof (i_know _ _ HI _ _ Hi) as Hk; pose proof (i_stat _ _ HI _ _ Hi) as Hs; cbn [know stat] in Hk, Hs.
Ltac more := let Hle := fresh in let H' := fresh in intros Hle; match goal with H : _ -> _ = 0%nat /\ _ |- _ => destruct (H Hle) as [? H'] end; split; [done|]; let j := fresh in intros j; rewrite elem_of_cons; intros [?|?]; [congruence|by apply (H' j)].
Ltac did_new := cbn [know did]; rewrite decide_True by done; done.
Lemma c_init m1 m2 : ls !! i = Some Out -> changing s = 0%nat -> gets s = 0%nat -> Inv (set_runs (S (changing s)) (deinits s) (gets s) (notifying s) (add_ev (Called i (Init m1 m2)) s)) (<[i := I0]> ls).
Proof.
  intros Hi H1 H2. hm (Called i (Init m1 m2)) Out I0 Hi.
  - numeric HI Hi Out I0 ls.
  - done.
  - refs HI Hi Out I0 ls. split_and!; try done. more.
  - by apply (regs_same s ls HI).
  - cbn. apply (i_settled _ _ HI H1).
  - others.
  - did_new.
  - done.
Qed.
Lemma c_deinit : ls !! i = Some Out -> changing s = 0%nat -> gets s = 0%nat -> notifying s = 0%nat -> Inv (set_runs (S (changing s)) (S (deinits s)) (gets s) (notifying s) (add_ev (Called i Deinit) s)) (<[i := D0]> ls).
Proof.
  intros Hi H1 H2 H3. hm (Called i Deinit) Out D0 Hi.
  - numeric HI Hi Out D0 ls.
  - done.
  - refs HI Hi Out D0 ls. split_and!; try done. more.
  - by apply (regs_same s ls HI).
  - cbn. apply (i_settled _ _ HI H1).
  - others.
  - did_new.
  - done.
Qed.
Lemma c_get : ls !! i = Some Out -> changing s = 0%nat -> Inv (set_runs (changing s) (deinits s) (S (gets s)) (notifying s) (add_ev (Called i Get) s)) (<[i := G0]> ls).
Proof.
  intros Hi H1. hm (Called i Get) Out G0 Hi.
  - numeric HI Hi Out G0 ls.
  - apply HI.
  - refs HI Hi Out G0 ls. split_and!; try done. more.
  - by apply (regs_same s ls HI).
  - done.
  - others.
  - done.
  - done.
Qed.
Lemma c_notify r : ls !! i = Some Out -> deinits s = 0%nat -> Inv (set_runs (changing s) (deinits s) (gets s) (S (notifying s)) (add_ev (Called i (Notify r)) s)) (<[i := N0]> ls).
Proof.
  intros Hi H1. hm (Called i (Notify r)) Out N0 Hi.
  - numeric HI Hi Out N0 ls.
  - apply HI.
  - refs HI Hi Out N0 ls. split_and!; try done. more.
  - by apply (regs_same s ls HI).
  - done.
  - others.
  - did_new.
  - done.
Qed.
Lemma c_drop p : ls !! i = Some Out -> (busy s p < held s p)%nat -> Inv (set_held (upd (held s) p (pred (held s p))) (busy s) (add_ev (Called i (Drop p)) s)) (<[i := P0 p]> ls).
Proof.
  intros Hi H1. hm (Called i (Drop p)) Out (P0 p) Hi.
  - numeric HI Hi Out (P0 p) ls.
  - apply HI.
  - refs HI Hi Out (P0 p) ls. destruct (decide (p0 = p)) as [->|Hne].
    + rewrite bool_decide_true in * by done. cbn [Nat.b2n] in *. split_and!; try done; try lia.
    + rewrite bool_decide_false in * by done. cbn [Nat.b2n] in *. split_and!; try done; try lia. more.
  - intros q. destruct (i_regs _ _ HI q) as (R1&R2&R3). unfold regs_ok; fields; cbn [registered]. split_and!; [done| |done]. intros Hu. destruct R2 as [R2 R4]; [intros j Hj; apply (Hu j); by right|]. split; [|done]. unfold upd. case_decide; [subst; lia|done].
  - done.
  - others.
  - done.
  - done.
Qed.
Lemma c_use o p l' : (exists f m, o = Register p f m /\ (l' = R0 p \/ l' = RNo p)) \/ (exists t, o = Unregister p t /\ l' = U0 p) -> ls !! i = Some Out -> (busy s p < held s p)%nat ->
  Inv (set_held (held s) (upd (busy s) p (S (busy s p))) (add_ev (Called i o) s)) (<[i := l']> ls).
Proof.
  intros Ho Hi H1. assert ((forall h q, holding q (Called i o :: h) = holding q h) /\ (l' = R0 p \/ l' = RNo p \/ l' = U0 p)) as [Hh Hl'] by (destruct Ho as [(?&?&->&[-> | ->])|(?&->&->)]; auto).
  clear Ho. assert (cnt isC (<[i := l']> ls) = cnt isC ls /\ cnt isD (<[i := l']> ls) = cnt isD ls /\ cnt isG (<[i := l']> ls) = cnt isG ls /\ cnt isN (<[i := l']> ls) = cnt isN ls) as (C1&C2&C3&C4).
  { split_and!; apply (cnt_same _ ls i Out l' Hi); by destruct Hl' as [-> |[-> | ->]]. }
  hm (Called i o) Out l' Hi.
  - rewrite C1, C2, C3, C4. apply HI.
  - apply HI.
  - intros q. destruct (i_refs _ _ HI q) as (R1&R2&R3&R4&R5). unfold refs_ok, cur in *; fields. cbn [current]. rewrite Hh.
    assert (cnt (owns q) (<[i := l']> ls) = cnt (owns q) ls) as -> by (apply (cnt_same _ ls i Out l' Hi); by destruct Hl' as [-> |[-> | ->]]).
    assert (cnt (uses q) (<[i := l']> ls) = cnt (uses q) ls + Nat.b2n (is q p))%nat as -> by (pose proof (cnt_upd (uses q) ls i Out l' Hi) as H; destruct Hl' as [-> |[-> | ->]]; cbn in *; lia).
    unfold upd, is. destruct (decide (q = p)) as [->|Hne].
    + rewrite bool_decide_true by done. cbn. split_and!; try done; try lia.
    + rewrite bool_decide_false by done. cbn. split_and!; try done; try lia. more.
  - by apply (regs_same s ls HI).
  - by destruct Hl' as [-> |[-> | ->]].
  - others.
  - destruct Hl' as [-> |[-> | ->]]; did_new.
  - done.
Qed.

(** Answers. *)
Lemma r_init m1 m2 r l : ls !! i = Some l -> isI l = true -> (forall p, owns p l = false) -> (forall p, uses p l = false) -> settled s (hist s) -> event_ok (Returned i (Init m1 m2) r) (hist s) ->
  Inv (set_runs (pred (changing s)) (deinits s) (gets s) (notifying s) (add_ev (Returned i (Init m1 m2) r) s)) (<[i := Out]> ls).
Proof.
  intros Hi Hl Ho Hu Hs He. pose proof (i_num _ _ HI) as Hn. unfold num_ok in *. 
  assert (isC l = true) as Hc by (unfold isC; by rewrite Hl). assert (isD l = false /\ isG l = false /\ isN l = false) as (L1&L2&L3) by (by destruct l).
  pose proof (cnt_upd isC ls i l Out Hi) as C1. pose proof (cnt_upd isD ls i l Out Hi) as C2. pose proof (cnt_upd isG ls i l Out Hi) as C3. pose proof (cnt_upd isN ls i l Out Hi) as C4.
  rewrite Hc, L1, L2, L3 in *. cbn [isC isI isD isG isN orb Nat.b2n] in *.
  hm (Returned i (Init m1 m2) r) l Out Hi.
  - unfold num_ok; fields. destruct Hn as (?&?&?&?&?&?&?). split_and!; lia.
  - done.
  - intros p. destruct (i_refs _ _ HI p) as (?&?&?&?&?). unfold refs_ok; fields. cbn [holding]. rewrite (cnt_same (owns p) ls i l Out Hi (Ho p)), (cnt_same (uses p) ls i l Out Hi (Hu p)). split_and!; try done. more.
  - by apply (regs_same s ls HI).
  - done.
  - others.
  - done.
  - done.
Qed.
Lemma r_deinit r l : ls !! i = Some l -> isD l = true -> (forall p, owns p l = false) -> (forall p, uses p l = false) -> settled s (hist s) -> event_ok (Returned i Deinit r) (hist s) ->
  Inv (set_runs (pred (changing s)) (pred (deinits s)) (gets s) (notifying s) (add_ev (Returned i Deinit r) s)) (<[i := Out]> ls).
Proof.
  intros Hi Hl Ho Hu Hs He. pose proof (i_num _ _ HI) as Hn. unfold num_ok in *. 
  assert (isC l = true) as Hc by (unfold isC; rewrite Hl; by destruct (isI l)). assert (isG l = false /\ isN l = false) as (L2&L3) by (by destruct l).
  pose proof (cnt_upd isC ls i l Out Hi) as C1. pose proof (cnt_upd isD ls i l Out Hi) as C2. pose proof (cnt_upd isG ls i l Out Hi) as C3. pose proof (cnt_upd isN ls i l Out Hi) as C4.
  rewrite Hc, Hl, L2, L3 in *. cbn [isC isI isD isG isN orb Nat.b2n] in *.
  hm (Returned i Deinit r) l Out Hi.
  - unfold num_ok; fields. destruct Hn as (?&?&?&?&?&?&?). split_and!; lia.
  - done.
  - intros p. destruct (i_refs _ _ HI p) as (?&?&?&?&?). unfold refs_ok; fields. cbn [holding]. rewrite (cnt_same (owns p) ls i l Out Hi (Ho p)), (cnt_same (uses p) ls i l Out Hi (Hu p)). split_and!; try done. more.
  - by apply (regs_same s ls HI).
  - done.
  - others.
  - done.
  - done.
Qed.
Lemma r_get_none : ls !! i = Some GNone -> Inv (set_runs (changing s) (deinits s) (pred (gets s)) (notifying s) (add_ev (Returned i Get (Disp None)) s)) (<[i := Out]> ls).
Proof.
  intros Hi. getk Hi. hm (Returned i Get (Disp None)) GNone Out Hi.
  - numeric HI Hi GNone Out ls.
  - apply HI.
  - refs HI Hi GNone Out ls. split_and!; try done. more.
  - by apply (regs_same s ls HI).
  - done.
  - others.
  - done.
  - cbn. by rewrite Hs.
Qed.
Lemma r_get p : ls !! i = Some (GRet p) -> Inv (set_runs (changing s) (deinits s) (pred (gets s)) (notifying s) (set_held (upd (held s) p (S (held s p))) (busy s) (add_ev (Returned i Get (Disp (Some p))) s))) (<[i := Out]> ls).
Proof.
  intros Hi. getk Hi. destruct Hs as [E1 E2]. hm (Returned i Get (Disp (Some p))) (GRet p) Out Hi.
  - numeric HI Hi (GRet p) Out ls.
  - apply HI.
  - refs HI Hi (GRet p) Out ls. destruct (decide (p0 = p)) as [->|Hne].
    + rewrite bool_decide_true in * by done. cbn [Nat.b2n] in *. split_and!; try done; try lia.
    + rewrite bool_decide_false in * by done. cbn [Nat.b2n] in *. split_and!; try done; try lia. more.
  - intros q. destruct (i_regs _ _ HI q) as (R1&R2&R3). unfold regs_ok; fields; cbn [registered]. split_and!; [done| |done]. intros Hu. unfold upd. destruct (decide (q = p)) as [->|].
    + exfalso. clear -E2 Hu. assert (forall h, current h = Some p -> exists j, Up j p ∈ h) as H. { induction h as [|e h IH]; [done|]. intros Hc. destruct e; cbn in Hc; try (destruct (IH Hc) as [j Hj]; exists j; by right); simplify_eq. eexists. by left. }
      destruct (H _ E2) as [j Hj]. apply (Hu j). by right.
    + apply R2. intros j Hj. apply (Hu j). by right.
  - done.
  - others.
  - done.
  - cbn. by rewrite E2.
Qed.
Lemma r_notify r v l : ls !! i = Some l -> isN l = true -> event_ok (Returned i (Notify r) v) (hist s) -> Inv (set_runs (changing s) (deinits s) (gets s) (pred (notifying s)) (add_ev (Returned i (Notify r) v) s)) (<[i := Out]> ls).
Proof.
  intros Hi Hl He. assert (isC l = false /\ isD l = false /\ isG l = false /\ (forall p, owns p l = false) /\ (forall p, uses p l = false)) as (L1&L2&L3&Ho&Hu) by (by destruct l).
  pose proof (i_num _ _ HI) as Hn. unfold num_ok in *. pose proof (cnt_upd isC ls i l Out Hi) as C1. pose proof (cnt_upd isD ls i l Out Hi) as C2. pose proof (cnt_upd isG ls i l Out Hi) as C3. pose proof (cnt_upd isN ls i l Out Hi) as C4.
  rewrite L1, L2, L3, Hl in *. cbn [isC isI isD isG isN orb Nat.b2n] in *.
  hm (Returned i (Notify r) v) l Out Hi.
  - unfold num_ok; fields. destruct Hn as (?&?&?&?&?&?&?). split_and!; lia.
  - apply HI.
  - intros p. destruct (i_refs _ _ HI p) as (?&?&?&?&?). unfold refs_ok; fields. cbn [holding]. rewrite (cnt_same (owns p) ls i l Out Hi (Ho p)), (cnt_same (uses p) ls i l Out Hi (Hu p)). split_and!; try done. more.
  - by apply (regs_same s ls HI).
  - done.
  - others.
  - done.
  - done.
Qed.
Lemma r_drop p : ls !! i = Some PRet -> Inv (add_ev (Returned i (Drop p) Void) s) (<[i := Out]> ls).
Proof.
  intros Hi. hm (Returned i (Drop p) Void) PRet Out Hi.
  - numeric HI Hi PRet Out ls.
  - apply HI.
  - refs HI Hi PRet Out ls. split_and!; try done. more.
  - by apply (regs_same s ls HI).
  - done.
  - others.
  - done.
  - done.
Qed.
Lemma r_use o r p l : (exists f m, o = Register p f m) \/ (exists t, o = Unregister p t) -> ls !! i = Some l -> (l = RNo p \/ (exists t f, l = RRet p t f) \/ (exists t, l = URet p t)) -> event_ok (Returned i o r) (hist s) ->
  Inv (set_held (held s) (upd (busy s) p (pred (busy s p))) (add_ev (Returned i o r) s)) (<[i := Out]> ls).
Proof.
  intros Ho Hi Hl He. assert (isC l = false /\ isD l = false /\ isG l = false /\ isN l = false /\ (forall q, owns q l = false) /\ (forall q, uses q l = is q p)) as (L1&L2&L3&L4&Hw&Hu) by (by destruct Hl as [-> |[(?&?&->)|(?&->)]]).
  assert (forall h q, holding q (Returned i o r :: h) = holding q h) as Hh by (by destruct Ho as [(?&?&->)|(?&->)]).
  hm (Returned i o r) l Out Hi.
  - rewrite (cnt_same isC ls i l Out Hi L1), (cnt_same isD ls i l Out Hi L2), (cnt_same isG ls i l Out Hi L3), (cnt_same isN ls i l Out Hi L4). apply HI.
  - apply HI.
  - intros q. destruct (i_refs _ _ HI q) as (R1&R2&R3&R4&R5). unfold refs_ok, cur in *; fields. cbn [current]. rewrite Hh, (cnt_same (owns q) ls i l Out Hi (Hw q)).
    pose proof (cnt_upd (uses q) ls i l Out Hi) as H. rewrite Hu in H. cbn [uses Nat.b2n] in H. unfold upd, is in *. destruct (decide (q = p)) as [->|Hne].
    + rewrite bool_decide_true in H by done. cbn in H. split_and!; try done; try lia.
    + rewrite bool_decide_false in H by done. cbn in H. split_and!; try done; try lia. more.
  - by apply (regs_same s ls HI).
  - done.
  - others.
  - done.
  - done.
Qed.
End calls.
Ltac wp_act X := apply wpa_act; [by unfold shape|]; intros s ls Hi HI; pose proof (i_stat _ _ HI _ _ Hi) as Hs; pose proof (i_know _ _ HI _ _ Hi) as Hk; cbn [stat know] in Hs, Hk; X.
Section progs.
Context (i : nat).
(** A step of the shape proved above *)
Lemma wp_step {X} o Q (m : M tnd X) k l (f : X -> pc) : l <> Out ->
  (forall s ls, Inv s ls -> ls !! i = Some l -> match m s with Done (x, s') => Inv s' (<[i := f x]> ls) | _ => False end) ->
  (forall x, wp Inv blk shape i o Q (k x) (f x)) -> wp Inv blk shape i o Q (Act m k) l.
Proof. intros Hl Hm Hk. apply wpa_act; [done|]. intros s ls Hi HI. specialize (Hm s ls HI Hi). destruct (m s) as [[x s']| |]; try done. exists (f x). split; [done|apply Hk]. Qed.
Lemma p_null_f m1 m2 p : m1 && m2 = false -> runs i (Init m1 m2) (assign_null (Ret (Int 1))) (F1 p).
Proof.
  intros Hm. unfold assign_null. apply wpa_act; [done|]. intros s ls Hi HI. pose proof (i_stat _ _ HI _ _ Hi) as Hs. pose proof (i_know _ _ HI _ _ Hi) as Hk. cbn in Hs, Hk. destruct Hs as (E1&E2&E3&E4&E5). cbn. rewrite E2.
  exists (F2 p). split. { by apply (a_local _ _ _ HI (F1 p)). }
  apply (wp_step _ _ _ _ _ (fun _ => F3 p)); [done| |].
  { clear. intros s ls HI Hi. pose proof (i_stat _ _ HI _ _ Hi) as Hs. pose proof (i_know _ _ HI _ _ Hi) as Hk. cbn in Hs, Hk. destruct Hs as (E1&E2&E3&E4&E5). apply (a_dec _ _ _ HI (F2 p)); try done.
    - right. congruence.
    - intros s' H1 H2 H3 H4 _. cbn. by rewrite H1, H2, H3, H4.
    - intros e He. cbn [know]. rewrite did_other; [done|by rewrite He]. }
  intros _. apply (wp_step _ _ _ _ _ (fun _ => IBad)); [done| |].
  { intros. by eapply a_null_f. }
  intros _. apply wpa_ret; [done|]. clear -Hm. intros s ls Hi HI. pose proof (i_stat _ _ HI _ _ Hi) as Hs. pose proof (i_know _ _ HI _ _ Hi) as Hk. cbn in Hs, Hk. eexists. split; [done|]. eapply r_init; try done. cbn. right. auto.
Qed.
Lemma p_init m1 m2 : runs i (Init m1 m2) (thread_notifications_dispatcher_init i m1 m2) I0.
Proof.
  unfold thread_notifications_dispatcher_init. apply wpa_act; [done|]. intros s ls Hi HI. pose proof (i_stat _ _ HI _ _ Hi) as Hs. pose proof (i_know _ _ HI _ _ Hi) as Hk. cbn in Hs, Hk. cbn.
  destruct (init s) eqn:E0.
  - exists IRef. split. { apply (a_local _ _ _ HI I0); try done. cbn. unfold settled in *. destruct (cell s); destruct Hs as (?&?&?); split_and!; try done; congruence. }
    apply wpa_ret; [done|]. clear. intros s ls Hi HI. pose proof (i_stat _ _ HI _ _ Hi) as Hs. pose proof (i_know _ _ HI _ _ Hi) as Hk. cbn in Hs, Hk. destruct Hs. eexists. split; [done|]. eapply r_init; try done. cbn. right. auto.
  - destruct m1; cbn [negb].
    2: { exists IBad. split. { by apply (a_local _ _ _ HI I0). }
         apply wpa_ret; [done|]. clear. intros s ls Hi HI. pose proof (i_stat _ _ HI _ _ Hi) as Hs. pose proof (i_know _ _ HI _ _ Hi) as Hk. cbn in Hs, Hk. eexists. split; [done|]. eapply r_init; try done. cbn. right. auto. }
    exists I1. split. { apply (a_local _ _ _ HI I0); try done. cbn. unfold settled in Hs. destruct (cell s); destruct Hs as (?&?&?); split_and!; try done; congruence. }
    apply (wp_step _ _ _ _ _ I2); [done| |].
    { intros. by eapply a_create. }
    intros p. apply (wp_step _ _ _ _ _ (fun _ => if m2 then I3 p else F1 p)); [done| |].
    { intros s' ls' HI' Hi'. eapply a_write; [done..|]. destruct m2; auto. }
    intros _. destruct m2; cbn [negb]; [|by apply p_null_f].
    apply (wp_step _ _ _ _ _ (fun _ => I4 p)); [done| |].
    { intros. by eapply a_lackey_init. }
    intros _. apply (wp_step _ _ _ _ _ (fun _ => IRet p)); [done| |].
    { intros. by eapply a_state_up. }
    intros _. apply wpa_ret; [done|]. clear. intros s ls Hi HI. pose proof (i_stat _ _ HI _ _ Hi) as Hs. pose proof (i_know _ _ HI _ _ Hi) as Hk. cbn in Hs, Hk. eexists. split; [done|]. eapply r_init; try done. cbn. left. eauto.
Qed.
Lemma p_deinit : runs i Deinit (thread_notifications_dispatcher_deinit i) D0.
Proof.
  unfold thread_notifications_dispatcher_deinit. apply wpa_act; [done|]. intros s ls Hi HI. pose proof (i_stat _ _ HI _ _ Hi) as Hs. pose proof (i_know _ _ HI _ _ Hi) as Hk. cbn in Hs, Hk. cbn.
  destruct (init s) eqn:E0; cbn [negb].
  2: { exists DRef. split. { apply (a_local _ _ _ HI D0); try done. cbn. unfold settled in *. destruct (cell s); destruct Hs as (?&?&?); split_and!; try done; congruence. }
    apply wpa_ret; [done|]. clear. intros s ls Hi HI. pose proof (i_stat _ _ HI _ _ Hi) as Hs. pose proof (i_know _ _ HI _ _ Hi) as Hk. cbn in Hs, Hk. destruct Hs. eexists. split; [done|]. eapply r_deinit; try done. cbn. auto. }
  destruct (cell s) as [p|] eqn:Ec; [|unfold settled in Hs; rewrite Ec in Hs; destruct_and!; congruence].
  exists (D1 p). split. { apply (a_local _ _ _ HI D0); try done. cbn. unfold settled in Hs. rewrite Ec in Hs. destruct Hs as (?&?&?). split_and!; done. }
  clear. apply (wp_step _ _ _ _ _ (fun _ => D2 p)); [done| |].
  { intros. by eapply a_lackey_deinit. }
  intros _. unfold assign_null. apply wpa_act; [done|]. intros s ls Hi HI. pose proof (i_stat _ _ HI _ _ Hi) as Hs. pose proof (i_know _ _ HI _ _ Hi) as Hk. cbn in Hs, Hk. destruct Hs as (E1&E2&E3&E4). cbn. rewrite E2.
  exists (D3 p). split. { by apply (a_local _ _ _ HI (D2 p)). }
  clear. apply (wp_step _ _ _ _ _ (fun _ => D4 p)); [done| |].
  { intros s ls HI Hi. pose proof (i_stat _ _ HI _ _ Hi) as Hs. pose proof (i_know _ _ HI _ _ Hi) as Hk. cbn in Hs, Hk. destruct Hs as (E1&E2&E3&E4). apply (a_dec _ _ _ HI (D3 p)); try done.
    - right. congruence.
    - intros s' H1 H2 H3 H4 _. cbn. by rewrite H1, H2, H3, H4.
    - intros e He. cbn [know]. rewrite did_other; [done|by rewrite He]. }
  intros _. apply (wp_step _ _ _ _ _ (fun _ => D5)); [done| |].
  { intros. by eapply a_null_d. }
  intros _. apply (wp_step _ _ _ _ _ (fun _ => DRet)); [done| |].
  { intros. by eapply a_state_down. }
  intros _. apply wpa_ret; [done|]. intros s ls Hi HI. pose proof (i_stat _ _ HI _ _ Hi) as Hs. pose proof (i_know _ _ HI _ _ Hi) as Hk. cbn in Hs, Hk. eexists. split; [done|]. eapply r_deinit; try done. cbn. auto.
Qed.
Lemma p_get : runs i Get thread_notifications_dispatcher_get_call_dispatcher G0.
Proof.
  unfold thread_notifications_dispatcher_get_call_dispatcher. apply wpa_act; [done|]. intros s ls Hi HI. cbn.
  assert (settled s (hist s)) as Hst. { apply HI. destruct (i_num _ _ HI) as (E1&_&_&_&_&H&_). pose proof (cnt_pos isG ls i _ Hi eq_refl). lia. }
  unfold settled in Hst. destruct (cell s) as [p|] eqn:Ec; destruct Hst as (_&_&Hc).
  - exists (G1 p). split. { by apply (a_local _ _ _ HI G0). }
    apply (wp_step _ _ _ _ _ (fun _ => GRet p)); [done| |].
    { intros. by eapply a_inc. }
    intros _. apply wpa_ret; [done|]. clear. intros s ls Hi HI. eexists. split; [done|]. by eapply r_get.
  - exists GNone. split. { by apply (a_local _ _ _ HI G0). }
    apply wpa_ret; [done|]. clear. intros s ls Hi HI. eexists. split; [done|]. by eapply r_get_none.
Qed.
(** When the DLL has the callback, notifications go somewhere. *)
Lemma cb_up s ls l : Inv s ls -> ls !! i = Some l -> isN l = true -> if cb s then exists p, cell s = Some p /\ current (hist s) = Some p else current (hist s) = None.
Proof.
  intros HI Hi Hl. destruct (decide (changing s = 0%nat)) as [E|E].
  - pose proof (i_settled _ _ HI E) as H. unfold settled in H. destruct (cell s) as [p|]; destruct H as (_&->&?); eauto.
  - destruct (i_num _ _ HI) as (E1&E2&E3&E4&E5&E6&E7). destruct (cnt_ex isC ls) as (j&lj&Hj&Hlj); [lia|]. pose proof (i_stat _ _ HI _ _ Hj) as Hs.
    pose proof (cnt_pos isN ls i _ Hi Hl). assert (isD lj = false). { destruct (isD lj) eqn:Ed; [|done]. pose proof (cnt_pos isD ls j _ Hj Ed). lia. }
    assert (settled s (hist s) -> if cb s then exists p, cell s = Some p /\ current (hist s) = Some p else current (hist s) = None) as Hset. { clear. unfold settled. destruct (cell s) as [p|]; intros (_&->&?); eauto. }
    destruct lj; cbn in Hs; try done; try (by apply Hset; naive_solver); destruct_and!; match goal with E : cb s = _ |- _ => rewrite E end; eauto.
Qed.
Lemma p_notify r : runs i (Notify r) (notify i r) N0.
Proof.
  unfold notify. apply wpa_act; [done|]. intros s ls Hi HI. pose proof (i_know _ _ HI _ _ Hi) as Hk. cbn in Hk. cbn. pose proof (cb_up _ _ _ HI Hi eq_refl) as Hcb. destruct (cb s) eqn:E; cbn [negb].
  2: { exists NNo. split. { apply (a_local _ _ _ HI N0); try done. cbn. split; [done|]. apply during_now. by apply bool_decide_true. }
    apply wpa_ret; [done|]. clear. intros s ls Hi HI. pose proof (i_know _ _ HI _ _ Hi) as Hk. cbn in Hk. eexists. split; [done|]. eapply r_notify; try done. cbn. auto. }
  destruct Hcb as (p&Hp&Hc). exists (N1 p). split. { by apply (a_local _ _ _ HI N0). }
  clear. apply wpa_act; [done|]. intros s ls Hi HI. pose proof (i_stat _ _ HI _ _ Hi) as Hs. pose proof (i_know _ _ HI _ _ Hi) as Hk. cbn in Hs, Hk. destruct Hs as [E1 E2]. cbn. rewrite E1.
  exists (N2 p). split. { by apply (a_local _ _ _ HI (N1 p)). }
  clear. apply wpa_act; [done|]. intros s ls Hi HI. pose proof (a_dispatch i s ls HI p r Hi) as H. destruct (dispatch i p r s) as [[x s']| |]; try done. eexists. split; [exact H|].
  apply wpa_ret; [done|]. generalize (registered p (hist s)). clear. intros l s ls Hi HI. pose proof (i_know _ _ HI _ _ Hi) as Hk. cbn in Hk. eexists. split; [done|]. eapply r_notify; try done. cbn. split; [done|]. left. eauto.
Qed.
Lemma p_drop p : runs i (Drop p) (act* _ := dec_ref p in Ret Void) (P0 p).
Proof.
  apply (wp_step _ _ _ _ _ (fun _ => PRet)); [done| |].
  { intros s ls HI Hi. apply (a_dec _ _ _ HI (P0 p)); try done. by left. }
  intros _. apply wpa_ret; [done|]. intros s ls Hi HI. eexists. split; [done|]. by eapply r_drop.
Qed.
Lemma p_register p f m : runs i (Register p f m) (if m then act* t := register i p f in Ret (Handle (Some t)) else Ret (Handle None)) (if m then R0 p else RNo p).
Proof.
  destruct m.
  - apply (wp_step _ _ _ _ _ (fun t => RRet p t f)); [done| |].
    { intros. by eapply a_register. }
    intros t. apply wpa_ret; [done|]. intros s ls Hi HI. pose proof (i_know _ _ HI _ _ Hi) as Hk. cbn in Hk. eexists. split; [done|]. eapply r_use; eauto 10. cbn. eauto.
  - apply wpa_ret; [done|]. intros s ls Hi HI. pose proof (i_know _ _ HI _ _ Hi) as Hk. cbn in Hk. eexists. split; [done|]. eapply r_use; eauto 10. done.
Qed.
Lemma p_unregister p t : runs i (Unregister p t) (act* _ := unregister i p t in Ret (Int 0)) (U0 p).
Proof.
  apply (wp_step _ _ _ _ _ (fun _ => URet p t)); [done| |].
  { intros. by eapply a_unregister. }
  intros _. apply wpa_ret; [done|]. intros s ls Hi HI. pose proof (i_know _ _ HI _ _ Hi) as Hk. cbn in Hk. eexists. split; [done|]. eapply r_use; eauto 10. done.
Qed.
End progs.

Lemma call_ok i o s s' ls l : ls !! i = Some l -> l = Out -> Inv s ls -> calls system i o s = Some s' -> exists l', Inv s' (<[i := l']> ls) /\ runs i o (code system i o) l'.
Proof.
  intros Hi -> HI. destruct o as [m1 m2| | |r|p|p f m|p t]; cbn [calls tndsys andb]; try (case_bool_decide as E; cbn [negb]; [|done]); intros [= <-].
  - exists I0. split; [by apply c_init; tauto|apply p_init].
  - exists D0. split; [by apply c_deinit; tauto|apply p_deinit].
  - exists G0. split; [by apply c_get|apply p_get].
  - exists N0. split; [by apply c_notify|apply p_notify].
  - exists (P0 p). split; [by apply c_drop|apply p_drop].
  - exists (if m then R0 p else RNo p). split; [|apply p_register]. apply c_use; [done| |done..]. left. exists f, m. split; [done|]. destruct m; auto.
  - exists (U0 p). split; [|apply p_unregister]. apply c_use; [done| |done..]. right. eauto.
Qed.
Lemma start_ok n : Inv initial (replicate n Out).
Proof.
  split; try done.
  - unfold num_ok. rewrite !cnt_replicate by done. cbn. lia.
  - intros p. unfold refs_ok, cur. cbn. rewrite !cnt_replicate by done. split_and!; try done. intros _. split; [done|]. intros j. apply not_elem_of_nil.
  - intros p. unfold regs_ok. cbn. split_and!; try done. by intros t g ?%elem_of_nil.
  - intros j l [-> _]%lookup_replicate. done.
  - intros j l [-> _]%lookup_replicate. done.
Qed.
Section reach.
Context (n : nat) (c : tnd * list (thread tnd op res)) (Hr : reachable system initial n c).
Lemma ok : conf_ok system Inv (.= Out) blk shape c.
Proof. eapply (reach_ok system Inv (.= Out) blk shape); [exact call_ok|by intros|reflexivity|apply start_ok|exact Hr]. Qed.
Lemma no_crash i : ~ crashed c i.
Proof. eapply ok_no_crash, ok. Qed.
Lemma never_blocked i : ~ blocked c i.
Proof. intros Hb. destruct ok as (ls&H1&H2&H3). destruct (ok_blocked _ _ _ _ _ _ _ _ H1 H2 H3 Hb) as (l&_&[]). Qed.
Lemma history later ev before : hist c.1 = later ++ ev :: before -> event_ok ev before.
Proof. intros E. destruct ok as (ls&_&HI&_). pose proof (i_ev _ _ HI) as H. rewrite E in H. by apply all_ok_at in H. Qed.
Lemma references p : (forall i t, c.2 !! i = Some t -> t = Idle) -> drefs c.1 p = (holding p (hist c.1) + (if decide (current (hist c.1) = Some p) then 1 else 0))%nat.
Proof.
  intros Hid. destruct ok as (ls&Hl&HI&Ht). destruct (i_refs _ _ HI p) as (H1&H2&_). unfold cur in H1. rewrite H1, H2.
  assert (cnt (owns p) ls = 0%nat) as ->; [|lia]. destruct (decide (cnt (owns p) ls = 0%nat)) as [|Hne]; [done|]. destruct (cnt_ex (owns p) ls) as (j&l&Hj&Ho); [lia|].
  destruct (lookup_lt_is_Some_2 c.2 j) as [t Htj]; [rewrite <-Hl; by eapply lookup_lt_Some|]. pose proof (Hid _ _ Htj) as ->. specialize (Ht _ _ _ Htj Hj). cbn in Ht. by subst.
Qed.
End reach.
