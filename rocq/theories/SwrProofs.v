(** Proofs about the synchronous wrapper. *)
From Verif Require Import Common Prog Conc ConcLists SwrModel SwrSpec.
Local Open Scope Z_scope.

Notation view := (option context -> list event -> Prop).
(** The wrapper: Wnew, then Wtry with the context, Wwait when the call was accepted, Wdone when it has seen that the callback is done, Wret with its answer. The callback: Cb F until it has set complete, then Cbw, then Cbd. *)
Inductive lst := Out | Wnew | Wtry | Wwait | Wdone | Wret (h r : bool) (ps : list bool) (a : res) | Cb (F : view) | Cbw | Cbd.
Definition isw (l : lst) : bool := match l with Wnew | Wtry | Wwait | Wdone | Wret _ _ _ _ => true | _ => false end.
Definition cb (l : lst) : bool := match l with Cb _ | Cbw | Cbd => true | _ => false end.
Definition cbr (l : lst) : bool := match l with Cb _ => true | _ => false end.

Section proofs.
Context (C : config) (HC : may_fail C = false).
Definition pre (h : list event) : Prop := given h = None /\ live h = [] /\ (~ copy_failed h) /\ answers h = [].
Definition finished (e : bool) (h : list event) : Prop :=
  exists vals, given h = Some vals /\ if e then copy_failed h /\ live h = [] else ~ copy_failed h /\ forall k, (k < length (custom C))%nat -> exists y, vals !! k = Some y /\ holds k h = Some y.
Definition fine (s : st) (n : nat) (j : nat) (l : lst) : Prop :=
  match l with
  | Wnew => frame s = None /\ pre (hist s) /\ answered (hist s) = None /\ n = 0%nat
  | Wtry => frame s = Some (Ctx 0 None) /\ pre (hist s) /\ answered (hist s) = None /\ n = 0%nat
  | Wwait => answered (hist s) = Some (expected_return C) /\
      ((exists e, frame s = Some (Ctx 0 e) /\ n = 1%nat) \/ (exists e, frame s = Some (Ctx 1 (Some e)) /\ n = 0%nat /\ finished e (hist s)))
  | Wdone => answered (hist s) = Some (expected_return C) /\ exists e, frame s = Some (Ctx 1 (Some e)) /\ n = 0%nat /\ finished e (hist s)
  | Wret h r ps a => (exists x v, a = Answer x v) /\ event_ok C (Returned j (Sync h r ps) a) (hist s) /\ n = 0%nat
  | Cb F => (exists e, frame s = Some (Ctx 0 e)) /\ F (frame s) (hist s)
  | _ => True
  end.
Record Inv (s : st) (ls : list lst) : Prop := {
  i_tok : (cnt cb ls + inflight s <= 1)%nat;
  i_wr : (cnt isw ls + length (answers (hist s)) = if started s then 1 else 0)%nat;
  i_new : started s = false -> (forall j l, ls !! j = Some l -> l = Out) /\ inflight s = 0%nat /\ frame s = None /\ hist s = [];
  i_loc : forall j l, ls !! j = Some l -> fine s (cnt cbr ls + inflight s) j l;
  i_fl : inflight s <> 0%nat -> pre (hist s) /\ frame s = Some (Ctx 0 None);
  i_wait : (cnt cbr ls + inflight s)%nat <> 0%nat -> exists j, ls !! j = Some Wwait;
  i_giv : cnt cb ls <> 0%nat -> given (hist s) <> None;
  i_ok : all_ok C (hist s) }.
Definition blk (i : nat) (l : lst) (s : st) : Prop := l = Wwait /\ forall e, frame s <> Some (Ctx 1 e).
Definition shape (o : op) (p : prog st res) (l : lst) : Prop := match o with Sync _ _ _ => isw l = true | Callback _ => cb l = true end.
Notation runs := (runs_ok (sync_wrapper C) Inv (.= Out) blk shape).
Notation wpa := (wpa Inv blk shape).

Lemma cbr_cb ls : (cnt cbr ls <= cnt cb ls)%nat.
Proof. unfold cnt, num. induction ls as [|l ls IH]; [done|]. rewrite !filter_cons. destruct l; cbn [cbr cb]; repeat case_decide; cbn [length]; try done; lia. Qed.
Lemma one_w s ls i j l lj : Inv s ls -> ls !! i = Some l -> isw l = true -> ls !! j = Some lj -> j <> i -> isw lj = false.
Proof. intros HI Hi Hl Hj Hne. destruct (isw lj) eqn:E; [|done]. pose proof (cnt_two isw ls i j l lj (not_eq_sym Hne) Hi Hj Hl E). pose proof (i_wr _ _ HI). destruct (started s); lia. Qed.
Lemma one_cb s ls i j l lj : Inv s ls -> ls !! i = Some l -> cb l = true -> ls !! j = Some lj -> j <> i -> cb lj = false.
Proof. intros HI Hi Hl Hj Hne. destruct (cb lj) eqn:E; [|done]. pose proof (cnt_two cb ls i j l lj (not_eq_sym Hne) Hi Hj Hl E). pose proof (i_tok _ _ HI). lia. Qed.
Lemma wait_answers s ls j : Inv s ls -> ls !! j = Some Wwait -> answers (hist s) = [].
Proof. intros HI Hj. pose proof (cnt_pos isw ls j _ Hj eq_refl). pose proof (i_wr _ _ HI). destruct (answers (hist s)); [done|]. cbn in *. destruct (started s); lia. Qed.

(** Events that leave what is known as it is *)
Definition mild (e : event) : Prop := match e with Woke => True | Returned _ (Callback _) Void => True | _ => False end.
Lemma mild_failed e h : mild e -> copy_failed (e :: h) <-> copy_failed h.
Proof. intros He. split; intros [k Hk]; exists k; [|by right]. apply elem_of_cons in Hk as [<-|?]; done. Qed.
Lemma mild_pre e h : mild e -> pre h -> pre (e :: h).
Proof. intros He (?&?&H&?). unfold pre. rewrite mild_failed by done. destruct e as [| ? [] []| | | | | |]; try done. Qed.
Lemma mild_finished e x h : mild e -> finished x h -> finished x (e :: h).
Proof. intros He (vals&Hg&Hx). exists vals. destruct x; rewrite mild_failed by done; destruct e as [| ? [] []| | | | | |]; try done. Qed.
Lemma mild_answered e h : mild e -> answered (e :: h) = answered h /\ answers (e :: h) = answers h.
Proof. destruct e as [| ? [] []| | | | | |]; try done. Qed.
Lemma mild_event e j h r ps a hist : mild e -> event_ok C (Returned j (Sync h r ps) a) hist -> event_ok C (Returned j (Sync h r ps) a) (e :: hist).
Proof. intros He. unfold event_ok. pose proof (mild_failed e hist He) as Hf. destruct (mild_answered e hist He) as [-> _]. destruct a as [|[] v]; try done; rewrite ?Hf; destruct e as [| ? [] []| | | | | |]; try done. Qed.
Lemma mild_fine s e n j l : cbr l = false -> mild e -> fine s n j l -> fine (St (frame s) (inflight s) (started s) (choice s) (e :: hist s)) n j l.
Proof.
  intros Hl He. destruct (mild_answered e (hist s) He) as [Ha _]. unfold fine. destruct l; cbn [frame hist]; rewrite ?Ha; try done.
  - intros (?&?&?&?). split_and!; try done. by apply mild_pre.
  - intros (?&?&?&?). split_and!; try done. by apply mild_pre.
  - intros (?&[?|(x&?&?&?)]); (split; [done|]); [by left|]. right. exists x. split_and!; try done. by apply mild_finished.
  - intros (?&(x&?&?&?)). split; [done|]. exists x. split_and!; try done. by apply mild_finished.
  - intros (?&?&?). split_and!; try done. by apply mild_event.
Qed.

(** The callback does one action, and has not set complete. *)
Definition plain (e : event) : Prop := match e with Assigned _ _ | Copied _ _ | NotCopied _ | Freed _ => True | _ => False end.
Lemma wp_cb A i vals Q (F : view) X (m : M st X) k :
  (forall s, (exists e, frame s = Some (Ctx 0 e)) -> F (frame s) (hist s) -> answers (hist s) = [] -> all_ok C (hist s) ->
     match m s with
     | Done (x, s') => inflight s' = inflight s /\ started s' = started s /\ (exists es, hist s' = es ++ hist s /\ Forall plain es) /\ all_ok C (hist s') /\ (exists e, frame s' = Some (Ctx 0 e)) /\
         exists F' : view, F' (frame s') (hist s') /\ wpa A i (Callback vals) Q (k x) (Cb F')
     | _ => False
     end) -> wpa A i (Callback vals) Q (Act m k) (Cb F).
Proof.
  intros Hm. apply wpa_act; [done|]. intros s ls Hi HI. destruct (i_loc _ _ HI _ _ Hi) as [Hfr HF]. pose proof (cnt_pos cbr ls i _ Hi eq_refl) as Hp. pose proof (cbr_cb ls) as Hcc. pose proof (i_tok _ _ HI) as Ht.
  destruct (i_wait _ _ HI) as [j0 Hj0]; [lia|]. pose proof (wait_answers _ _ _ HI Hj0) as Ha.
  specialize (Hm s Hfr HF Ha (i_ok _ _ HI)). destruct (m s) as [[x s']| |]; [|done..].
  destruct Hm as (Hfl & Hst & (es & Hes & Hpl) & Hok & Hfr' & F' & HF' & Hwp). exists (Cb F'). split; [|done].
  assert (answers (es ++ hist s) = answers (hist s) /\ answered (es ++ hist s) = answered (hist s) /\ given (es ++ hist s) = given (hist s)) as (E4&E5&E6). { clear -Hpl. induction Hpl as [|e es He _ IH]; [done|]. by destruct e. }
  assert (cnt cb (<[i := Cb F']> ls) = cnt cb ls) as E1 by (by eapply cnt_same). assert (cnt isw (<[i := Cb F']> ls) = cnt isw ls) as E2 by (by eapply cnt_same). assert (cnt cbr (<[i := Cb F']> ls) = cnt cbr ls) as E3 by (by eapply cnt_same).
  split; rewrite ?E1, ?E2, ?E3, ?Hfl, ?Hst, ?Hes, ?E4, ?E6.
  - done.
  - apply (i_wr _ _ HI).
  - intros Hs. by apply (proj1 (i_new _ _ HI Hs)) in Hi.
  - apply thr_upd; [by split|]. intros j l Hj Hne. destruct (decide (j = j0)) as [->|Hne'].
    + rewrite Hj0 in Hj. injection Hj as <-. destruct (i_loc _ _ HI _ _ Hj0) as (Hacc&_). unfold fine. rewrite Hes, E5. split; [done|]. left. destruct Hfr' as [e ?]. exists e. split; [done|]. lia.
    + pose proof (one_w _ _ _ _ _ _ HI Hj0 eq_refl Hj Hne'). pose proof (one_cb _ _ _ _ _ _ HI Hi eq_refl Hj Hne). by destruct l.
  - lia.
  - intros _. exists j0. rewrite list_lookup_insert_ne; [done|]. intros ->. rewrite Hi in Hj0. done.
  - apply (i_giv _ _ HI).
  - by rewrite <-Hes.
Qed.

(** The end of the callback *)
Lemma runs_wake i vals : runs i (Callback vals) (act* _ := wake in Ret Void) Cbw.
Proof.
  apply wpa_act; [done|]. intros s ls Hi HI. cbn [wake]. exists Cbd. split.
  - assert (cnt cb (<[i := Cbd]> ls) = cnt cb ls) as E1 by (by eapply cnt_same). assert (cnt isw (<[i := Cbd]> ls) = cnt isw ls) as E2 by (by eapply cnt_same). assert (cnt cbr (<[i := Cbd]> ls) = cnt cbr ls) as E3 by (by eapply cnt_same).
    split; cbn [upd inflight started hist frame app answers]; rewrite ?E1, ?E2, ?E3.
    + apply (i_tok _ _ HI).
    + apply (i_wr _ _ HI).
    + intros Hs. by apply (proj1 (i_new _ _ HI Hs)) in Hi.
    + apply thr_upd; [done|]. intros j l Hj Hne. apply mild_fine; [|done|by apply (i_loc _ _ HI)]. pose proof (one_cb _ _ _ _ _ _ HI Hi eq_refl Hj Hne). by destruct l.
    + intros H. pose proof (cnt_pos cb ls i _ Hi eq_refl). pose proof (i_tok _ _ HI). lia.
    + intros H. destruct (i_wait _ _ HI H) as [j Hj]. exists j. rewrite list_lookup_insert_ne; [done|]. intros ->. rewrite Hi in Hj. done.
    + apply (i_giv _ _ HI).
    + split; [done|apply (i_ok _ _ HI)].
  - apply wpa_ret; [done|]. clear s ls Hi HI. intros s ls Hi HI. exists Out. split; [done|].
    assert (cnt cb (<[i := Out]> ls) + 1 = cnt cb ls)%nat as E1. { pose proof (cnt_upd cb ls i _ Out Hi) as H. cbn in H. lia. } assert (cnt isw (<[i := Out]> ls) = cnt isw ls) as E2 by (by eapply cnt_same). assert (cnt cbr (<[i := Out]> ls) = cnt cbr ls) as E3 by (by eapply cnt_same).
    pose proof (i_tok _ _ HI) as Ht. cbn [returns sync_wrapper]. split; cbn [upd inflight started hist frame app answers]; rewrite ?E2, ?E3.
    + lia.
    + apply (i_wr _ _ HI).
    + intros Hs. by apply (proj1 (i_new _ _ HI Hs)) in Hi.
    + apply thr_upd; [done|]. intros j l Hj Hne. apply mild_fine; [|done|by apply (i_loc _ _ HI)]. pose proof (one_cb _ _ _ _ _ _ HI Hi eq_refl Hj Hne). by destruct l.
    + lia.
    + intros H. destruct (i_wait _ _ HI H) as [j Hj]. exists j. rewrite list_lookup_insert_ne; [done|]. intros ->. rewrite Hi in Hj. done.
    + intros H. apply (i_giv _ _ HI). lia.
    + split; [done|apply (i_ok _ _ HI)].
Qed.
Definition copied_all (e : bool) : view := fun c h => c = Some (Ctx 0 (Some e)) /\ finished e h.
Lemma runs_complete i vals e (F : view) : (forall c h, F c h -> copied_all e c h) -> runs i (Callback vals) (act* _ := set_complete in act* _ := wake in Ret Void) (Cb F).
Proof.
  intros HF. apply wpa_act; [done|]. intros s ls Hi HI. destruct (i_loc _ _ HI _ _ Hi) as [_ [Hfr Hfin]%HF]. pose proof (cnt_pos cbr ls i _ Hi eq_refl) as Hp. pose proof (cbr_cb ls) as Hcc. pose proof (i_tok _ _ HI) as Ht.
  destruct (i_wait _ _ HI) as [j0 Hj0]; [lia|]. unfold set_complete. rewrite Hfr. exists Cbw. split; [|apply runs_wake].
  assert (cnt cb (<[i := Cbw]> ls) = cnt cb ls) as E1 by (by eapply cnt_same). assert (cnt isw (<[i := Cbw]> ls) = cnt isw ls) as E2 by (by eapply cnt_same). assert (cnt cbr (<[i := Cbw]> ls) + 1 = cnt cbr ls)%nat as E3. { pose proof (cnt_upd cbr ls i _ Cbw Hi) as H. cbn in H. lia. }
  split; cbn [upd inflight started hist frame app answers error]; rewrite ?E1, ?E2.
  - done.
  - apply (i_wr _ _ HI).
  - intros Hs. by apply (proj1 (i_new _ _ HI Hs)) in Hi.
  - apply thr_upd; [done|]. intros j l Hj Hne. destruct (decide (j = j0)) as [->|Hne'].
    + rewrite Hj0 in Hj. injection Hj as <-. destruct (i_loc _ _ HI _ _ Hj0) as (Hacc&_). split; [done|]. right. exists e. cbn [frame hist]. split_and!; try done. lia.
    + pose proof (one_w _ _ _ _ _ _ HI Hj0 eq_refl Hj Hne'). pose proof (one_cb _ _ _ _ _ _ HI Hi eq_refl Hj Hne). by destruct l.
  - lia.
  - lia.
  - apply (i_giv _ _ HI).
  - apply (i_ok _ _ HI).
Qed.

(** The callback copies: the first n out arguments are done *)
Fixpoint idx (l : list bool) (n : nat) : list nat := match l with [] => [] | true :: l => n :: idx l (S n) | false :: l => idx l (S n) end.
Lemma idx_app l1 l2 n : idx (l1 ++ l2) n = idx l1 n ++ idx l2 (n + length l1).
Proof. revert n. induction l1 as [|[] l1 IH]; intros n; cbn; [by rewrite Nat.add_0_r|..]; rewrite IH; cbn; repeat f_equal; lia. Qed.
Lemma idx_in l n k : k ∈ idx l n -> (n <= k < n + length l)%nat.
Proof. revert n. induction l as [|[] l IH]; intros n; cbn; [by intros ?%elem_of_nil|..]; [intros [->|H%IH]%elem_of_cons|intros H%IH]; lia. Qed.
Lemma idx_filter l n : filter (.≠ n) (n :: idx l (S n)) = idx l (S n).
Proof. rewrite filter_cons, decide_False by auto. apply filter_id. intros k Hk%idx_in. lia. Qed.
Lemma idx_false need m : idx (need ++ [false]) m = idx need m.
Proof. rewrite idx_app. cbn. by rewrite app_nil_r. Qed.
Definition copying (vals : list Z) (n : nat) (need : list bool) (e : bool) : view := fun c h =>
  c = Some (Ctx 0 (Some e)) /\ given h = Some vals /\ live h = idx need 0 /\ if e then copy_failed h else ~ copy_failed h /\ forall k, (k < n)%nat -> exists y, vals !! k = Some y /\ holds k h = Some y.
Lemma failed_cons e h : (forall k, e <> NotCopied k) -> copy_failed (e :: h) <-> copy_failed h.
Proof. intros He. split; intros [k Hk]; exists k; [|by right]. apply elem_of_cons in Hk as [Hk|?]; [by destruct (He k)|done]. Qed.
Ltac acb := apply wp_cb; intros s [e0 Hfr] (F1&F2&F3&F4) Ha Hok.
Lemma wp_copy_outs A i vals Q pv pb l : forall vs need e k, vals = pv ++ vs -> custom C = pb ++ l -> length pv = length pb -> length need = length pb -> length vs = length l ->
  (forall need' e', length need' = length (custom C) -> (forall j, need' !! j = Some true -> custom C !! j = Some true) -> wpa A i (Callback vals) Q (k need') (Cb (copying vals (length (custom C)) need' e'))) ->
  (forall j, need !! j = Some true -> custom C !! j = Some true) ->
  wpa A i (Callback vals) Q (copy_outs l vs (length pb) need k) (Cb (copying vals (length pb) need e)).
Proof.
  revert pv pb. induction l as [|b l IH]; intros pv pb vs need e k Hv Hc Hl1 Hl2 Hl3 Hk Hn.
  - destruct vs; [|done]. cbn. rewrite app_nil_r in Hc. rewrite Hc in *. by apply Hk.
  - destruct vs as [|v vs]; [done|]. cbn [copy_outs]. injection Hl3 as Hl3.
    assert (vals !! length pb = Some v) as Hlv by (by rewrite Hv, lookup_app_r, Hl1, Nat.sub_diag by lia).
    assert (custom C !! length pb = Some b) as Hlb by (by rewrite Hc, lookup_app_r, Nat.sub_diag by lia).
    assert (forall nb e', (nb = true -> b = true) -> wpa A i (Callback vals) Q (copy_outs l vs (S (length pb)) (need ++ [nb]) k) (Cb (copying vals (S (length pb)) (need ++ [nb]) e'))) as Hgo.
    { intros nb e' Hnb. specialize (IH (pv ++ [v]) (pb ++ [b]) vs (need ++ [nb]) e' k). rewrite !app_length in IH. cbn [length] in IH. rewrite !Nat.add_1_r in IH. apply IH; try done; try lia.
      - by rewrite <-app_assoc. - by rewrite <-app_assoc.
      - intros j Hj. apply lookup_app_Some in Hj as [?|[? Hj]]; [auto|]. apply list_lookup_singleton_Some in Hj as [Hj ->]. replace j with (length pb) by lia. rewrite Hnb in Hlb by done. done. }
    assert (forall h y k', holds k' h = Some y -> (k' < length pb)%nat -> forall e, (match e with Assigned j _ | Copied j _ => j = length pb | NotCopied _ => True | _ => False end) -> holds k' (e :: h) = Some y) as Hold.
    { intros h y k' Hh Hk' [] He; try done; cbn; rewrite decide_False by lia; done. }
    destruct b.
    + destruct e.
      * acb. unfold get_error. rewrite F1. split_and!; try done; [by exists []|eauto|]. exists (copying vals (S (length pb)) (need ++ [false]) true). split; [|by apply Hgo]. split_and!; try done. by rewrite idx_false.
      * acb. unfold get_error. rewrite F1. split_and!; try done; [by exists []|eauto|]. exists (copying vals (length pb) need false). split; [done|]. clear s e0 Hfr F1 F2 F3 F4 Ha Hok. cbn [negb]. acb. unfold copy_out. rewrite F1. destruct F4 as [F4 F5]. destruct (choice s =? 0); cbn [upd inflight started hist frame app answers negb].
        -- split_and!; try done; [exists [Copied (length pb) v]; split; [done|by repeat constructor]| |eauto|].
           { split; [|done]. cbn. rewrite F3. split_and!; try done; [|eauto]. intros H%idx_in. lia. }
           exists (copying vals (S (length pb)) (need ++ [true]) false). split; [|by apply Hgo]. split_and!; try done.
           ++ cbn. rewrite F3, idx_app, Hl2. done.
           ++ by rewrite failed_cons by done.
           ++ intros k' Hk'. destruct (decide (k' = length pb)) as [->|Hne]; [exists v; split; [done|]; cbn; by rewrite decide_True|]. destruct (F5 k') as (y&?&?); [lia|]. exists y. split; [done|]. apply Hold; [done|lia|done].
        -- split_and!; try done; [exists [NotCopied (length pb)]; split; [done|by repeat constructor]|eauto|].
           exists (fun c h => c = Some (Ctx 0 (Some false)) /\ given h = Some vals /\ live h = idx need 0 /\ copy_failed h). split. { split_and!; try done. exists (length pb). left. }
           clear s e0 Hfr F1 F2 F3 F4 F5 Ha Hok. acb. unfold set_error. rewrite F1. cbn [upd inflight started hist frame app answers complete]. split_and!; try done; [by exists []|eauto|].
           exists (copying vals (S (length pb)) (need ++ [false]) true). split; [|by apply Hgo]. split_and!; try done. by rewrite idx_false.
    + acb. unfold assign_out. rewrite F1. cbn [upd inflight started hist frame app answers]. split_and!; try done; [exists [Assigned (length pb) v]; split; [done|by repeat constructor]| |eauto|].
      { split; [|done]. cbn. split_and!; try done. eauto. }
      exists (copying vals (S (length pb)) (need ++ [false]) e). split; [|by apply Hgo]. split_and!; try done; [by rewrite idx_false|]. destruct e; [by rewrite failed_cons by done|]. rewrite failed_cons by done. destruct F4 as [F4 F5]. split; [done|].
      intros k' Hk'. destruct (decide (k' = length pb)) as [->|Hne]; [exists v; split; [done|]; cbn; by rewrite decide_True|]. destruct (F5 k') as (y&?&?); [lia|]. exists y. split; [done|]. apply Hold; [done|lia|done].
Qed.
(** The callback frees what it has copied, if there was an error. *)
Definition freeing (vals : list Z) (need : list bool) (n : nat) (e : bool) : view := fun c h =>
  c = Some (Ctx 0 (Some e)) /\ given h = Some vals /\ if e then copy_failed h /\ live h = idx need n else ~ copy_failed h /\ forall k, (k < length (custom C))%nat -> exists y, vals !! k = Some y /\ holds k h = Some y.
Lemma runs_free i vals l : forall need n e (F : view), length need = length l -> (forall j, need !! j = Some true -> l !! j = Some true) -> (forall c h, F c h -> freeing vals need n e c h) ->
  runs i (Callback vals) (free_failed l need n (act* _ := set_complete in act* _ := wake in Ret Void)) (Cb F).
Proof.
  induction l as [|b l IH]; intros need n e F Hlen Hn HF; destruct need as [|nd need]; try done; cbn [free_failed].
  { apply (runs_complete _ _ e). intros c h (H1&H2&H3)%HF. split; [done|]. exists vals. split; [done|]. by destruct e. }
  injection Hlen as Hlen. assert (forall j, need !! j = Some true -> l !! j = Some true) as Hn' by (intros j; apply (Hn (S j))).
  assert (forall c h, e = false \/ nd = false -> freeing vals (nd :: need) n e c h -> freeing vals need (S n) e c h) as Hskip. { intros c h Hd (H1&H2&H3). split_and!; try done. destruct e; [|done]. destruct Hd as [Hd| ->]; [done|]. done. }
  destruct b.
  - apply wp_cb; intros s Hfr F1%HF Ha Hok. pose proof F1 as (F2&_). unfold get_error. rewrite F2. split_and!; try done; [by exists []|].
    destruct (e && nd) eqn:E.
    + apply andb_true_iff in E as [-> ->]. exists (freeing vals (true :: need) n true). split; [done|]. clear s Hfr F1 F2 Ha Hok. apply wp_cb; intros s Hfr (F1&F2&F3&F4) Ha Hok. unfold free_out. rewrite F1. cbn [upd inflight started hist frame app answers].
      split_and!; try done; [exists [Freed n]; split; [done|by repeat constructor]| |eauto|]. { split; [|done]. cbn. rewrite F4. split_and!; try done. left. }
      eexists. split; [|apply (IH need (S n) true (freeing vals need (S n) true)); done]. split_and!; try done; [by rewrite failed_cons|]. cbn [live]. rewrite F4. apply idx_filter.
    + exists (freeing vals (nd :: need) n e). split; [done|]. eapply IH; [done|done|]. intros c h. apply Hskip. destruct e, nd; auto.
  - eapply IH; [done|done|]. intros c h H%HF. apply Hskip; [|done]. right. destruct nd; [|done]. by specialize (Hn 0%nat eq_refl).
Qed.
Lemma runs_callback i vals : length vals = length (custom C) -> runs i (Callback vals) (on_complete C vals) (Cb (fun c h => c = Some (Ctx 0 None) /\ given h = Some vals /\ live h = [] /\ ~ copy_failed h)).
Proof.
  intros Hl. unfold on_complete. acb. unfold set_error. rewrite F1. cbn [upd inflight started hist frame app answers complete]. split_and!; try done; [by exists []|eauto|].
  exists (copying vals 0 [] false). split. { split_and!; try done. lia. } apply (wp_copy_outs _ i vals _ [] [] (custom C)); try done.
  intros need e Hln Hn. apply (runs_free i vals (custom C) need 0 e); [done|done|]. intros c h (H1&H2&H3&H4). split_and!; try done. by destruct e.
Qed.

(** The wrapper *)
Lemma ret_w i h r ps a : runs i (Sync h r ps) (Ret a) (Wret h r ps a).
Proof.
  apply wpa_ret; [done|]. intros s ls Hi HI. exists Out. split; [done|]. destruct (i_loc _ _ HI _ _ Hi) as ((x&v&->)&Hev&H0).
  assert (cnt cb (<[i := Out]> ls) = cnt cb ls) as E1 by (by eapply cnt_same). assert (cnt isw (<[i := Out]> ls) + 1 = cnt isw ls)%nat as E2. { pose proof (cnt_upd isw ls i _ Out Hi) as H. cbn in H. lia. } assert (cnt cbr (<[i := Out]> ls) = cnt cbr ls) as E3 by (by eapply cnt_same).
  pose proof (i_wr _ _ HI) as Hw. cbn [returns sync_wrapper]. split; cbn [upd inflight started hist frame app answers]; rewrite ?E1, ?E3.
  - apply (i_tok _ _ HI).
  - cbn. lia.
  - intros Hs. by apply (proj1 (i_new _ _ HI Hs)) in Hi.
  - apply thr_upd; [done|]. intros j l Hj Hne. pose proof (one_w _ _ _ _ _ _ HI Hi eq_refl Hj Hne). destruct l; try done. pose proof (cnt_pos cbr ls j _ Hj eq_refl). lia.
  - lia.
  - lia.
  - apply (i_giv _ _ HI).
  - split; [done|apply (i_ok _ _ HI)].
Qed.
(** One action of the wrapper that changes no more than the context and the history *)
Lemma wp_w A i h r ps Q l X (m : M st X) k : isw l = true ->
  (forall s n, fine s n i l -> answers (hist s) = [] ->
     match m s with
     | Done (x, s') => inflight s' = inflight s /\ started s' = started s /\ (n <> 0%nat -> s' = s) /\ answers (hist s') = answers (hist s) /\ given (hist s') = given (hist s) /\ (all_ok C (hist s) -> all_ok C (hist s')) /\
         exists l', isw l' = true /\ (l = Wwait -> n = 0%nat) /\ fine s' n i l' /\ wpa A i (Sync h r ps) Q (k x) l'
     | Undef => False
     | NoFuel => blk i l s
     end) -> wpa A i (Sync h r ps) Q (Act m k) l.
Proof.
  intros Hl Hm. apply wpa_act; [done|]. intros s ls Hi HI. pose proof (i_loc _ _ HI _ _ Hi) as Hf.
  assert (answers (hist s) = []) as Ha. { pose proof (cnt_pos isw ls i _ Hi Hl). pose proof (i_wr _ _ HI). destruct (answers (hist s)); [done|]. cbn in *. destruct (started s); lia. }
  specialize (Hm s _ Hf Ha). destruct (m s) as [[x s']| |]; [|done..]. destruct Hm as (Hfl & Hst & Hn & Hans & Hgiv & Hok & l' & Hl' & Hww & Hf' & Hwp). exists l'. split; [|done].
  assert (cb l = false /\ cbr l = false /\ cb l' = false /\ cbr l' = false) as (B1&B2&B3&B4) by (by destruct l, l').
  assert (cnt cb (<[i := l']> ls) = cnt cb ls) as E1 by (eapply cnt_same; [done|congruence]). assert (cnt isw (<[i := l']> ls) = cnt isw ls) as E2 by (eapply cnt_same; [done|congruence]). assert (cnt cbr (<[i := l']> ls) = cnt cbr ls) as E3 by (eapply cnt_same; [done|congruence]).
  split; rewrite ?E1, ?E2, ?E3, ?Hfl, ?Hst, ?Hans, ?Hgiv.
  - apply (i_tok _ _ HI).
  - apply (i_wr _ _ HI).
  - intros Hs. apply (proj1 (i_new _ _ HI Hs)) in Hi. by subst l.
  - apply thr_upd; [done|]. intros j lj Hj Hne. pose proof (one_w _ _ _ _ _ _ HI Hi Hl Hj Hne) as Hjw. pose proof (i_loc _ _ HI _ _ Hj) as Hfj. destruct lj; try done. pose proof (cnt_pos cbr ls j _ Hj eq_refl). rewrite Hn by lia. done.
  - intros H. rewrite Hn by lia. by apply (i_fl _ _ HI).
  - intros H. destruct (i_wait _ _ HI H) as [j Hj]. exists j. destruct (decide (j = i)) as [->|Hne]; [|by rewrite list_lookup_insert_ne by done]. rewrite Hi in Hj. injection Hj as ->. specialize (Hww eq_refl). lia.
  - apply (i_giv _ _ HI).
  - apply Hok, (i_ok _ _ HI).
Qed.
Lemma runs_async i h r ps k : (forall x, x <> expected_return C -> runs i (Sync h r ps) (k x) (Wret h r ps (Answer CALL_ERROR (Some x)))) -> h && r && forallb id ps = true -> runs i (Sync h r ps) (k (expected_return C)) Wwait -> runs i (Sync h r ps) (Act (async_function C) k) Wtry.
Proof.
  intros Hk Hargs Hk'. apply wpa_act; [done|]. intros s ls Hi HI. destruct (i_loc _ _ HI _ _ Hi) as (Hfr&(P1&P2&P3&P4)&Han&H0). unfold async_function. pose proof (i_tok _ _ HI) as Ht. pose proof (cbr_cb ls) as Hcc.
  assert (~ copy_failed (Attempt (choice s) :: hist s)) as P3' by (by rewrite failed_cons).
  destruct (choice s =? expected_return C) eqn:E.
  - apply Z.eqb_eq in E. rewrite E in *. exists Wwait. split; [|done].
    assert (cnt cb (<[i := Wwait]> ls) = cnt cb ls) as E1 by (by eapply cnt_same). assert (cnt isw (<[i := Wwait]> ls) = cnt isw ls) as E2 by (by eapply cnt_same). assert (cnt cbr (<[i := Wwait]> ls) = cnt cbr ls) as E3 by (by eapply cnt_same).
    split; cbn [upd inflight started hist frame app answers]; rewrite ?E1, ?E2, ?E3.
    + assert (cnt cb ls = 0%nat); [|lia]. destruct (cnt cb ls) eqn:Ecb; [done|]. by destruct (i_giv _ _ HI); [rewrite Ecb|].
    + apply (i_wr _ _ HI).
    + intros Hs. by apply (proj1 (i_new _ _ HI Hs)) in Hi.
    + apply thr_upd.
      * split; [done|]. left. exists None. split; [done|]. lia.
      * intros j l Hj Hne. pose proof (one_w _ _ _ _ _ _ HI Hi eq_refl Hj Hne) as Hjw. destruct l; try done. pose proof (cnt_pos cbr ls j _ Hj eq_refl). lia.
    + intros _. done.
    + intros _. exists i. by eapply upd_at.
    + apply (i_giv _ _ HI).
    + split; [done|apply (i_ok _ _ HI)].
  - apply Z.eqb_neq in E. eexists. split; [|by apply Hk]. set (l' := Wret _ _ _ _).
    assert (cnt cb (<[i := l']> ls) = cnt cb ls) as E1 by (by eapply cnt_same). assert (cnt isw (<[i := l']> ls) = cnt isw ls) as E2 by (by eapply cnt_same). assert (cnt cbr (<[i := l']> ls) = cnt cbr ls) as E3 by (by eapply cnt_same).
    split; cbn [upd inflight started hist frame app answers]; rewrite ?E1, ?E2, ?E3.
    + done.
    + apply (i_wr _ _ HI).
    + intros Hs. by apply (proj1 (i_new _ _ HI Hs)) in Hi.
    + apply thr_upd.
      * split; [by eexists _, _|]. split; [|done]. cbn. split_and!; try done. congruence.
      * intros j l Hj Hne. pose proof (one_w _ _ _ _ _ _ HI Hi eq_refl Hj Hne) as Hjw. destruct l; try done. pose proof (cnt_pos cbr ls j _ Hj eq_refl). lia.
    + lia.
    + lia.
    + apply (i_giv _ _ HI).
    + split; [done|apply (i_ok _ _ HI)].
Qed.
Lemma runs_wrap i h r ps : h && r && forallb id ps = true -> runs i (Sync h r ps) (wrapper C h r ps) Wnew.
Proof.
  intros Hargs. unfold wrapper. destruct h; [|done]. destruct r; [|done]. cbn in Hargs. rewrite Hargs. cbn [negb].
  apply wp_w; [done|]. intros s n (F1&F2&F3&F4) Ha. cbn. split_and!; try done. exists Wtry. split_and!; try done.
  clear s n F1 F2 F3 F4 Ha. apply runs_async; [| |].
  - intros x Hx. rewrite (proj2 (Z.eqb_neq _ _) Hx). cbn [negb]. apply ret_w.
  - done.
  - rewrite Z.eqb_refl. cbn [negb]. apply wp_w; [done|]. intros s n (F1&F2) Ha. unfold wait_complete. rewrite HC. cbn [andb]. destruct F2 as [(e&F2&F3)|(e&F2&F3&F4)]; rewrite F2; cbn.
    + split; [done|]. by rewrite F2.
    + split_and!; try done. exists Wdone. split_and!; eauto. { split; eauto. } clear s n e F1 F2 F3 F4 Ha.
      apply wp_w; [done|]. intros s n (F1&e&F2&F3&F4) Ha. unfold get_error. rewrite F2. split_and!; try done.
      exists (Wret true true ps (Answer (if e then COPY_ARG_ERROR else OK) (Some (expected_return C)))). split_and!; try done; [|by destruct e; apply ret_w].
      split; [by eexists _, _|]. split; [|done]. destruct F4 as (vals&G1&G2). destruct e; cbn; (split; [done|]); (split; [done|]); destruct G2; eauto.
Qed.
Lemma call_ok i o s s' ls l : ls !! i = Some l -> l = Out -> Inv s ls -> calls (sync_wrapper C) i o s = Some s' -> exists l', Inv s' (<[i := l']> ls) /\ runs i o (code (sync_wrapper C) i o) l'.
Proof.
  intros Hi -> HI Hc. pose proof (i_tok _ _ HI) as Ht. pose proof (i_wr _ _ HI) as Hw. pose proof (cbr_cb ls) as Hcc. cbn in Hc. destruct o as [h r ps|vals]; cbn [code sync_wrapper].
  - destruct (started s) eqn:Hst; [done|]. destruct (decide _) as [Hlp|]; [|done]. injection Hc as <-. destruct (i_new _ _ HI Hst) as (N1&N2&N3&N4).
    assert (forall b : lst -> bool, b Out = false -> cnt b ls = 0%nat) as Hcnt. { intros b Hb. destruct (cnt b ls) eqn:E; [done|]. destruct (cnt_ex b ls) as (j&lj&Hj&Hbj); [lia|]. rewrite (N1 _ _ Hj) in Hbj. congruence. }
    exists (if h && r && forallb id ps then Wnew else Wret h r ps (Answer INVALID_ARGS None)). set (l' := if h && r && forallb id ps then Wnew else Wret h r ps (Answer INVALID_ARGS None)). assert (isw l' = true /\ cb l' = false /\ cbr l' = false) as (B1&B2&B3) by (unfold l'; by destruct (_ && _)).
    assert (cnt cb (<[i := l']> ls) = 0%nat) as E1 by (rewrite <-(Hcnt cb) by done; eapply cnt_same; [done|by rewrite B2]). assert (cnt cbr (<[i := l']> ls) = 0%nat) as E3 by (rewrite <-(Hcnt cbr) by done; eapply cnt_same; [done|by rewrite B3]).
    assert (cnt isw (<[i := l']> ls) = 1%nat) as E2. { pose proof (cnt_upd isw ls i _ l' Hi) as H. rewrite B1, Hcnt in H by done. cbn in H. lia. }
    split.
    + split; cbn [upd inflight started hist frame app answers]; rewrite ?E1, ?E2, ?E3, ?N2, ?N4; try done; try lia.
      apply thr_upd; [|intros j lj Hj _; by rewrite (N1 _ _ Hj)]. unfold l'. destruct (_ && _) eqn:E.
      * split_and!; try done. split_and!; try done. cbn. by intros [k [?|?%elem_of_nil]%elem_of_cons].
      * split_and!; try done; by eexists _, _.
    + unfold l'. destruct (_ && _) eqn:E; [by apply runs_wrap|]. unfold wrapper. destruct h; [|by apply ret_w]. destruct r; [|by apply ret_w]. cbn in E. rewrite E. apply ret_w.
  - destruct (inflight s) as [|n] eqn:Hfl; [done|]. destruct (decide _) as [Hl|]; [|done]. injection Hc as <-. destruct (i_fl _ _ HI) as ((P1&P2&P3&P4)&Hfr); [lia|]. destruct (i_wait _ _ HI) as [j0 Hj0]; [lia|].
    eexists. split; [|by apply runs_callback]. set (l' := Cb _).
    assert (cnt cb (<[i := l']> ls) = S (cnt cb ls)) as E1. { pose proof (cnt_upd cb ls i _ l' Hi) as H. cbn in H. lia. } assert (cnt cbr (<[i := l']> ls) = S (cnt cbr ls)) as E3. { pose proof (cnt_upd cbr ls i _ l' Hi) as H. cbn in H. lia. }
    assert (cnt isw (<[i := l']> ls) = cnt isw ls) as E2 by (by eapply cnt_same).
    split; cbn [upd inflight started hist frame app answers]; rewrite ?E1, ?E2, ?E3.
    + lia.
    + done.
    + intros Hs. destruct (i_new _ _ HI Hs) as (_&?&_). lia.
    + apply thr_upd.
      * split; [eauto|]. cbn. split_and!; try done. by rewrite failed_cons.
      * intros j l Hj Hne. destruct (decide (j = j0)) as [->|Hne']; [|pose proof (one_w _ _ _ _ _ _ HI Hj0 eq_refl Hj Hne'); destruct l; try done; pose proof (cnt_pos cbr ls j _ Hj eq_refl); lia].
        rewrite Hj0 in Hj. injection Hj as <-. destruct (i_loc _ _ HI _ _ Hj0) as (Hacc&_). split; [done|]. left. exists None. split; [done|]. lia.
    + lia.
    + intros _. exists j0. rewrite list_lookup_insert_ne; [done|]. intros ->. rewrite Hi in Hj0. done.
    + done.
    + split; [done|apply (i_ok _ _ HI)].
Qed.
Lemma env_ok s s' ls : Inv s ls -> env (sync_wrapper C) s s' -> Inv s' ls.
Proof. intros [] [c ->]. by split. Qed.
Lemma inv_start n : Inv start (replicate n Out).
Proof.
  split; cbn; rewrite ?cnt_replicate by done; try done; try lia.
  - intros _. split; [|done]. by intros j l [-> _]%lookup_replicate.
  - by intros j l [-> _]%lookup_replicate.
Qed.
Theorem reach_inv n c : reachable (sync_wrapper C) start n c -> conf_ok (sync_wrapper C) Inv (.= Out) blk shape c.
Proof. eapply reach_ok; [exact call_ok|exact env_ok|done|apply inv_start]. Qed.
End proofs.
