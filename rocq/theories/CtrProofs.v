(** Proofs about the reference count of a CANCELLATION_TOKEN. *)
From Verif Require Import Common Prog Conc ConcLists CtokModel CtokSpec CtokProofs CtrModel.

(** What a thread holds, besides where it is in CtokProofs.v: k references of its caller; Past: the registration it makes, or disposes of, has taken or given up its reference;
    Last: it has given up the last reference; Hold: a copy or a drop of k references. *)
Inductive mark := Plain (k : nat) | Past (k : nat) | Last | Hold (k : nat).
Notation T' := (pc * mark)%type.
Definition kept (t : T') : nat := match t.2 with Plain k | Past k | Hold k => k | Last => 0 end.
Definition fld (t : T') : option addr :=
  match t with
  | (R3 r _ _, Past _) | (U0 r, _) | (U1 r _, _) | (U2 r, Plain _) => Some r
  | _ => None
  end.
Definition is_last (t : T') : bool := match t.2 with Last => true | _ => false end.
Definition needs (l : pc) : bool := match l with Out | N | U0 _ | U1 _ _ | U2 _ | U3 _ => false | _ => true end.
Definition total (ls : list T') : nat := sum_list (kept <$> ls).
Lemma total_upd ls i t t' : ls !! i = Some t -> total (<[i := t']> ls) + kept t = total ls + kept t'.
Proof.
  unfold total. revert i. induction ls as [|x ls IH]; intros [|i] Hi; simplify_eq/=; [lia|]. specialize (IH _ Hi). lia.
Qed.
Lemma total_in ls i t : ls !! i = Some t -> kept t <= total ls.
Proof. unfold total. revert i. induction ls as [|x ls IH]; intros [|i] Hi; simplify_eq/=; [lia|]. specialize (IH _ Hi). lia. Qed.

Section b0.
Context (b0 : bool).
Notation Inv := (Inv b0).
Notation runs := (runs_ok token Inv (.= Out) blk shape).
Record RInv (s : shared) (ls : list T') : Prop := {
  r_base : Inv (base s) ls.*1;
  r_fields : elements (fields s) ≡ₚ handles (hist (base s)) ++ omap fld ls;
  r_count : count s = hands s + total ls + size (fields s);
  r_last : cnt is_last ls = if bool_decide (count s = 0) && negb (freed s) then 1 else 0;
  r_freed : freed s = true -> count s = 0;
  r_needs : forall j t, ls !! j = Some t -> needs t.1 = true -> 0 < kept t;
}.
Definition Rblk (i : nat) (t : T') (s : shared) : Prop := blk i t.1 (base s).
Definition Rshape (o : rop) (p : prog shared res) (t : T') : Prop := match o with Use (Dispose _) | Copy | Drop => True | _ => kept t = lent o end.
Notation Ridle := (fun t : T' => t = (Out, Plain 0)).
Notation Rruns := (runs_ok counted RInv Ridle Rblk Rshape).

Lemma fst_at (ls : list T') i t : ls !! i = Some t -> ls.*1 !! i = Some t.1.
Proof. intros Hi. by rewrite list_lookup_fmap, Hi. Qed.
Lemma fst_set (ls : list T') i t : (<[i := t]> ls).*1 = <[i := t.1]> ls.*1.
Proof. by rewrite list_fmap_insert. Qed.
Lemma set_cases (ls : list T') i t t0 j u : ls !! i = Some t0 -> <[i := t]> ls !! j = Some u -> (j = i /\ u = t) \/ (j <> i /\ ls !! j = Some u).
Proof.
  intros Hi Hj. destruct (decide (j = i)) as [->|Hne]; [|right; by rewrite list_lookup_insert_ne in Hj]. left. split; [done|]. rewrite list_lookup_insert in Hj by (by eapply lookup_lt_Some). congruence.
Qed.
Lemma alive s ls i t : RInv s ls -> ls !! i = Some t -> 0 < kept t \/ fld t <> None -> 0 < count s /\ freed s = false.
Proof.
  intros HR Hi H. assert (0 < count s) as Hc.
  { rewrite (r_count _ _ HR). destruct H as [H|H]; [pose proof (total_in _ _ _ Hi); lia|]. destruct (fld t) as [r|] eqn:E; [|done].
    assert (r ∈ elements (fields s)) as Hin. { rewrite (r_fields _ _ HR), elem_of_app. right. by eapply omap_in. } apply elem_of_elements in Hin.
    assert (size (fields s) <> 0); [|lia]. intros E0%size_empty_inv. set_solver. }
  split; [done|]. destruct (freed s) eqn:E; [|done]. pose proof (r_freed _ _ HR E). lia.
Qed.
(** A thread moves. *)
Lemma move s s' ls i t t' : RInv s ls -> ls !! i = Some t -> Inv (base s') (<[i := t'.1]> ls.*1) ->
  elements (fields s') ≡ₚ handles (hist (base s')) ++ omap fld (<[i := t']> ls) ->
  count s' + hands s + kept t + size (fields s) = count s + hands s' + kept t' + size (fields s') ->
  (if bool_decide (count s' = 0) && negb (freed s') then 1 else 0) + Nat.b2n (is_last t) = (if bool_decide (count s = 0) && negb (freed s) then 1 else 0) + Nat.b2n (is_last t') ->
  (freed s' = true -> count s' = 0) -> (needs t'.1 = true -> 0 < kept t') -> RInv s' (<[i := t']> ls).
Proof.
  intros HR Hi HI Hf Hc Hl Hfr Hn. pose proof (total_upd ls i t t' Hi). pose proof (r_count _ _ HR). pose proof (r_last _ _ HR). pose proof (cnt_upd is_last ls i t t' Hi). split; try done.
  - by rewrite fst_set.
  - lia.
  - lia.
  - intros j u Hj. destruct (set_cases _ _ _ _ _ _ Hi Hj) as [[-> ->]|[_ Hj']]; [done|]. by eapply r_needs.
Qed.
(** A thread moves in the token only. *)
Lemma move_base s b ls i t t' : RInv s ls -> ls !! i = Some t -> Inv b (<[i := t'.1]> ls.*1) -> handles (hist b) = handles (hist (base s)) -> fld t = fld t' -> kept t = kept t' -> is_last t = is_last t' ->
  (needs t'.1 = true -> 0 < kept t') -> RInv (set_base b s) (<[i := t']> ls).
Proof.
  intros HR Hi HI Hh Hf Hk Hl Hn. apply (move s _ ls i t t'); try done; cbn.
  - rewrite Hh, (omap_upd0 fld ls i t t' Hi Hf). apply HR.
  - lia.
  - by rewrite Hl.
  - apply HR.
Qed.

Lemma on_ret r k : on_token (Ret r) k = k r.
Proof. rewrite (frob_eq (on_token (Ret r) k)). simpl. destruct (k r). all: reflexivity. Qed.
Lemma on_act X (m : M tok X) p k : on_token (Act m p) k = Act (touch m) (fun x => on_token (p x) k).
Proof. by rewrite (frob_eq (on_token (Act m p) k)). Qed.
Definition cont (o : op) : res -> prog shared res := match o with Register _ _ _ _ _ => keep_token | _ => Ret end.
Definition is_dispose (o : op) : bool := match o with Dispose _ => true | _ => false end.
Lemma place_other o p l : is_dispose o = false -> place o p l -> disposing l = false /\ (lends o = false -> l = N) /\ forall r, p = Ret (Handle (Some r)) -> exists f c, l = R3 r f c.
Proof. by destruct o. Qed.
Lemma lent_use o : is_dispose o = false -> lent (Use o) = Nat.b2n (lends o) /\ given (Use o) = Nat.b2n (lends o).
Proof. by destruct o. Qed.
Lemma needs_other o l : is_dispose o = false -> (lends o = false -> l = N) -> needs l = true -> 0 < lent (Use o).
Proof. intros Hd Hl Hn. rewrite (proj1 (lent_use _ Hd)). destruct (lends o) eqn:E; cbn; [lia|]. by rewrite (Hl eq_refl) in Hn. Qed.
Lemma fld_other l k : disposing l = false -> fld (l, Plain k) = None.
Proof. by destruct l. Qed.
Lemma shape_kept o p t : is_dispose o = false -> kept t = lent (Use o) -> Rshape (Use o) p t.
Proof. by destruct o. Qed.
Lemma use_ok i o p l : is_dispose o = false -> runs i o p l -> lends o = true \/ (exists r, p = Ret r) -> Rruns i (Use o) (on_token p (cont o)) (l, Plain (lent (Use o))).
Proof.
  intros Hd Hw Hle.
  exists (fun p' t => (exists p l, p' = on_token p (cont o) /\ t = (l, Plain (lent (Use o))) /\ runs i o p l /\ (lends o = true \/ exists r, p = Ret r)) \/
    (exists r f c, p' = Ret (Handle (Some r)) /\ t = (R3 r f c, Past (lent (Use o))) /\ runs i o (Ret (Handle (Some r))) (R3 r f c) /\ exists d f c m1 m2, o = Register d f c m1 m2)).
  split; [left; by eauto 10|]. clear p l Hw Hle. intros p' t [(p&l&->&->&Hw&Hle)|(r&f&c&->&->&Hw&Hreg)]; right.
  - pose proof (wpa_unfold _ _ _ _ _ _ _ _ _ Hw) as [[]|[[Hg Hp] Hb]]. destruct (place_other _ _ _ Hd Hp) as (Hdi&Hln&Hr3). destruct p as [r|X m k].
    + rewrite on_ret. assert ((cont o r = Ret r /\ forall h, handles (Returned i o r :: h) = handles h) \/ exists d f c m1 m2 x, o = Register d f c m1 m2 /\ r = Handle (Some x)) as [[-> Eh]|(d&f&c&m1&m2&x&->&->)].
      { destruct o, r as [|[]| |]; eauto 10. }
      * split; [by apply shape_kept|]. intros s ls Hi HR. destruct (Hb _ _ (fst_at _ _ _ Hi) (r_base _ _ HR)) as (l'&->&HI'). exists (Out, Plain 0). split; [done|].
        cbn [returns counted]. eapply (move s); [done|exact Hi|done|..]; cbn.
        -- specialize (Eh (hist (base s))). cbn in Eh. rewrite Eh.
           rewrite (omap_upd0 fld ls i _ (Out, Plain 0) Hi) by (by rewrite fld_other). apply HR.
        -- destruct o; cbn; lia.
        -- done.
        -- apply HR.
        -- done.
      * destruct (Hr3 x eq_refl) as (f'&c'&->). assert (d = true) as ->. { destruct d; [done|]. by specialize (Hln eq_refl). }
        split; [done|]. intros s ls Hi HR. unfold take_field. destruct (alive _ _ _ _ HR Hi) as [Hc Hfr]; [left; cbn; lia|]. rewrite Hfr.
        assert (x ∉ fields s) as Hx.
        { rewrite <-elem_of_elements, (r_fields _ _ HR), elem_of_app. intros [Hin|Hin].
          - by eapply owns_not; [apply HR|apply (fst_at _ _ _ Hi)|..].
          - apply elem_of_list_omap in Hin as (t&[j Hj]%elem_of_list_lookup&Hfl). destruct (decide (j = i)) as [->|Hji]; [by simplify_eq|]. assert (owns t.1 = Some x) as Ho by (by destruct t as [[] []]; simplify_eq/=).
            by eapply (owns_ne _ _ _ _ _ x j t.1 x (r_base _ _ HR) (fst_at _ _ _ Hi) eq_refl (fst_at _ _ _ Hj) Hji Ho). }
        rewrite decide_False by done. exists (R3 x f' c', Past 1). split; [|right; exists x, f', c'; by eauto 12]. eapply (move s); [done|exact Hi|..]; cbn.
        -- rewrite list_insert_id by (by apply (fst_at _ _ _ Hi)). apply HR.
        -- rewrite elements_union_singleton by done. rewrite (r_fields _ _ HR). rewrite (omap_gain fld ls i _ (R3 x f' c', Past 1) x Hi eq_refl eq_refl). by rewrite Permutation_middle.
        -- rewrite size_union, size_singleton by set_solver. lia.
        -- rewrite (bool_decide_false (count s = 0)) by lia. done.
        -- done.
        -- lia.
    + rewrite on_act. split; [by apply shape_kept|]. intros s ls Hi HR. destruct Hle as [Hle|[? ?]]; [|done]. assert (lent (Use o) = 1) as E1 by (by rewrite (proj1 (lent_use _ Hd)), Hle). rewrite E1 in *.
      specialize (Hb _ _ (fst_at _ _ _ Hi) (r_base _ _ HR)). destruct (alive _ _ _ _ HR Hi) as [Hc Hfr]; [left; cbn; lia|]. unfold touch, apart. rewrite Hfr. destruct (m (base s)) as [[x b]| |] eqn:Em; [|done..].
      destruct Hb as (l'&HI'&Hw'). exists (l', Plain 1). split; [|left; by eauto 10]. pose proof (wpa_unfold _ _ _ _ _ _ _ _ _ Hw') as [[]|[[_ Hp'] _]]. destruct (place_other _ _ _ Hd Hp') as (Hdi'&Hln'&_).
      apply (move_base s b ls i (l, Plain 1)); try done.
      * by destruct (Hg _ _ _ Em) as (_&?&_).
      * by rewrite !fld_other.
      * cbn. lia.
  - pose proof (wpa_unfold _ _ _ _ _ _ _ _ _ Hw) as [[]|[_ Hb]]. split; [by apply shape_kept|]. intros s ls Hi HR. destruct (Hb _ _ (fst_at _ _ _ Hi) (r_base _ _ HR)) as (l'&->&HI'). exists (Out, Plain 0). split; [done|].
    destruct Hreg as (d&f1&c1&m1&m2&->). cbn [returns counted]. eapply (move s); [done|exact Hi|done|..]; cbn.
    + rewrite (r_fields _ _ HR). pose proof (omap_lose fld ls i _ (Out, Plain 0) r Hi eq_refl eq_refl) as Ho. rewrite <-Ho. by rewrite Permutation_middle.
    + lia.
    + done.
    + apply HR.
    + done.
Qed.
Lemma get_move s ls i r : Inv s ls -> ls !! i = Some (U0 r) -> exists h, get_target_handle r s = Done (h, s) /\ Inv s (<[i := U1 r h]> ls).
Proof.
  intros HI Hi. pose proof (i_thr _ _ _ HI _ _ Hi) as Ht. cbn in Ht.
  assert (r ∈ tr <$> targets s) as (t&->&Hin)%elem_of_list_fmap. { rewrite (i_link _ _ _ HI), elem_of_app. right. by eapply omap_in. }
  assert (blocks s !! tr t = Some (Some (th t))) as Hb.
  { destruct (i_field _ _ _ HI _ Hin) as [(j&f&c&Hj)|?]; [|done]. destruct (decide (j = i)) as [->|Hji]; [by rewrite Hi in Hj|]. destruct (owns_ne _ _ _ _ _ _ _ _ _ HI Hi eq_refl Hj Hji eq_refl). done. }
  exists (th t). unfold get_target_handle. rewrite Hb. split; [done|]. apply (stay b0 s ls i (U0 (tr t))); try done. cbn. split; [done|]. exists (tf t), (tc t). by destruct t.
Qed.
Lemma last_alone s ls i t : RInv s ls -> ls !! i = Some t -> is_last t = true -> count s = 0 /\ freed s = false.
Proof.
  intros HR Hi Hl. pose proof (cnt_pos is_last ls i t Hi Hl) as Hp. rewrite (r_last _ _ HR) in Hp. destruct (bool_decide (count s = 0)) eqn:E; [|cbn in Hp; lia]. apply bool_decide_eq_true in E.
  destruct (freed s); [cbn in Hp; lia|done].
Qed.
Lemma nobody s ls : RInv s ls -> count s = 0 -> hands s = 0 /\ fields s = ∅ /\ handles (hist (base s)) = [] /\ targets (base s) = [] /\ reading (base s) = None /\ forall j t, ls !! j = Some t -> kept t = 0.
Proof.
  intros HR Hc. pose proof (r_count _ _ HR) as H. assert (size (fields s) = 0) as Hf%size_empty_inv by lia. apply leibniz_equiv in Hf.
  pose proof (r_fields _ _ HR) as Hp. rewrite Hf, elements_empty in Hp. apply Permutation_nil in Hp. apply app_eq_nil in Hp as [Hh Ho].
  assert (forall j t, ls !! j = Some t -> kept t = 0) as Hk. { intros j t Hj. pose proof (total_in _ _ _ Hj). lia. }
  assert (forall j t, ls !! j = Some t -> needs t.1 = false) as Hn. { intros j t Hj. destruct (needs t.1) eqn:E; [|done]. pose proof (r_needs _ _ HR _ _ Hj E). specialize (Hk _ _ Hj). lia. }
  assert (forall j t, ls !! j = Some t -> fld t = None) as Hfl. { intros j t Hj. destruct (fld t) as [r|] eqn:E; [|done]. pose proof (omap_in _ _ _ _ _ Hj E) as Hin. rewrite Ho in Hin. by apply elem_of_nil in Hin. }
  split_and!; try done; [lia|..].
  - pose proof (i_link _ _ _ (r_base _ _ HR)) as Hl. rewrite Hh, omap_none in Hl.
    + apply Permutation_sym, Permutation_nil in Hl. by apply fmap_nil_inv in Hl.
    + intros j l Hj. rewrite list_lookup_fmap in Hj. destruct (ls !! j) as [[l0 mk]|] eqn:E; [|done]. cbn in Hj. injection Hj as ->. specialize (Hn _ _ E). specialize (Hfl _ _ E). by destruct l.
  - destruct (reading (base s)) as [j|] eqn:E; [|done]. apply (i_read _ _ _ (r_base _ _ HR)) in E as (l&Hj&Hl). rewrite list_lookup_fmap in Hj. destruct (ls !! j) as [[l0 mk]|] eqn:E; [|done]. cbn in Hj. injection Hj as ->.
    specialize (Hn _ _ E). by destruct l.
Qed.
Lemma dispose_move s ls i l t' : RInv s ls -> ls !! i = Some (l, Last) -> t'.1 = l -> fld t' = fld (l, Last) -> kept t' = 0 -> is_last t' = false ->
  exists s', dispose_token s = Done (tt, s') /\ RInv s' (<[i := t']> ls).
Proof.
  intros HR Hi Hl Hf Hk Hla. destruct (last_alone _ _ _ _ HR Hi eq_refl) as [Hc Hfr]. destruct (nobody _ _ HR Hc) as (_&_&_&_&Hrd&_). unfold dispose_token. rewrite Hfr, Hrd. eexists. split; [done|].
  eapply (move s); [done|exact Hi|..]; cbn.
  - rewrite Hl. rewrite list_insert_id by (by apply (fst_at _ _ _ Hi)). apply HR.
  - rewrite (omap_upd0 fld ls i _ t' Hi) by done. apply HR.
  - rewrite Hk. cbn. lia.
  - rewrite Hla, Hfr, Hc. done.
  - done.
  - intros Hn. rewrite Hl in Hn. pose proof (r_needs _ _ HR _ _ Hi Hn). cbn in *. lia.
Qed.
Lemma freeing_ok i r : Rruns i (Use (Dispose r)) (act* _ := apart (free_registration r) in Ret Void) (U2 r, Past 0).
Proof.
  apply wpa_act; [done|]. intros s ls Hi HR. pose proof (r_base _ _ HR) as HI. pose proof (fst_at _ _ _ Hi) as Hi'. pose proof (i_thr _ _ _ HI _ _ Hi') as Ht.
  destruct (free_ok _ (base s) ls.*1 i r (U2 r) (U3 r) HI Hi') as [Hb HI']; try done. unfold apart, free_registration. destruct (blocks (base s) !! r); [|done].
  exists (U3 r, Past 0). split; [by apply (move_base s _ ls i (U2 r, Past 0))|]. clear. apply wpa_ret; [done|]. intros s ls Hi HR. exists (Out, Plain 0). split; [done|].
  pose proof (disposed_ok b0 i r) as Hw. apply wpa_unfold in Hw as [[]|[_ Hb]]. destruct (Hb _ _ (fst_at _ _ _ Hi) (r_base _ _ HR)) as (l'&->&HI'). cbn [returns counted].
  eapply (move s); [done|exact Hi|done|..]; cbn.
  - rewrite (omap_upd0 fld ls i _ (Out, Plain 0) Hi) by done. apply HR.
  - lia.
  - done.
  - apply HR.
  - done.
Qed.
Lemma dispose_ok i r : Rruns i (Use (Dispose r)) (registration_dispose r) (U0 r, Plain 0).
Proof.
  apply wpa_act; [done|]. intros s ls Hi HR. destruct (get_move _ _ _ _ (r_base _ _ HR) (fst_at _ _ _ Hi)) as (h&Hg&HI'). unfold apart at 1. rewrite Hg. exists (U1 r h, Plain 0). split; [by apply (move_base s _ ls i (U0 r, Plain 0))|].
  clear. apply wpa_act; [done|]. intros s ls Hi HR. destruct (alive _ _ _ _ HR Hi) as [Hc Hfr]; [by right|]. unfold touch, apart at 1. rewrite Hfr. unfold unregister_target. destruct (reading (base s)) as [j|] eqn:Er; [split; [done|by rewrite Er]|].
  destruct (unregister_move _ _ _ _ _ _ (r_base _ _ HR) (fst_at _ _ _ Hi) Er) as [Hin HI']. rewrite decide_True by done. exists (U2 r, Plain 0). split; [by apply (move_base s _ ls i (U1 r h, Plain 0))|].
  clear. apply wpa_act; [done|]. intros s ls Hi HR. destruct (alive _ _ _ _ HR Hi) as [Hc Hfr]; [by right|]. unfold drop_field.
  assert (r ∈ fields s) as Hin. { apply elem_of_elements. rewrite (r_fields _ _ HR), elem_of_app. right. by eapply omap_in. } rewrite decide_True by done. rewrite Hfr. destruct (count s) as [|n] eqn:En; [lia|].
  assert (forall mk, kept (U2 r, mk) = 0 -> fld (U2 r, mk) = None -> is_last (U2 r, mk) = bool_decide (n = 0) -> RInv (Shared (base s) n false (fields s ∖ {[r]}) (hands s)) (<[i := (U2 r, mk)]> ls)) as Hgo.
  { intros mk Hk Hf Hl. eapply (move s); [done|exact Hi|..]; cbn [CtrModel.base fields hands count freed fst].
    - rewrite list_insert_id by (by apply (fst_at _ _ _ Hi)). apply HR.
    - pose proof (omap_lose fld ls i _ (U2 r, mk) r Hi eq_refl Hf) as Ho. pose proof (r_fields _ _ HR) as Hp. rewrite <-Ho, <-Permutation_middle in Hp.
      assert (elements (fields s) ≡ₚ r :: elements (fields s ∖ {[r]})) as E. { rewrite <-elements_union_singleton by set_solver. by rewrite <-union_difference_singleton_L. }
      rewrite E in Hp. by apply Permutation_cons_inv in Hp.
    - assert (size (fields s) = S (size (fields s ∖ {[r]}))) as E. { rewrite (union_difference_singleton_L r (fields s) Hin) at 1. rewrite size_union, size_singleton by set_solver. done. }
      rewrite E, En, Hk. cbn. lia.
    - rewrite Hl, En, Hfr. cbn. by destruct (bool_decide (n = 0)).
    - done.
    - done. }
  destruct (bool_decide (n = 0)) eqn:E0.
  - exists (U2 r, Last). split; [by apply Hgo|]. clear. apply wpa_act; [done|]. intros s ls Hi HR. destruct (dispose_move _ _ _ _ (U2 r, Past 0) HR Hi) as (s'&->&HR'); try done. exists (U2 r, Past 0). split; [done|]. apply freeing_ok.
  - exists (U2 r, Past 0). split; [by apply Hgo|]. apply freeing_ok.
Qed.
(** Copies and drops. *)
Lemma hold_ret i o : o = Copy \/ o = Drop -> Rruns i o (Ret Void) (Out, Hold (given o)).
Proof.
  intros Ho. apply wpa_ret; [by destruct Ho as [-> | ->]|]. intros s ls Hi HR. exists (Out, Plain 0). split; [done|]. assert (returns counted i o Void s = set_hands (hands s + given o) s) as -> by (by destruct Ho as [-> | ->]).
  eapply (move s); [done|exact Hi|..]; cbn [CtrModel.base fields hands count freed fst set_hands].
  - rewrite list_insert_id by (by apply (fst_at _ _ _ Hi)). apply HR.
  - rewrite (omap_upd0 fld ls i _ (Out, Plain 0) Hi) by done. apply HR.
  - cbn. lia.
  - done.
  - apply HR.
  - done.
Qed.
Lemma copy_ok i : Rruns i Copy copy_token (Out, Hold 1).
Proof.
  apply wpa_act; [done|]. intros s ls Hi HR. destruct (alive _ _ _ _ HR Hi) as [Hc Hfr]; [left; cbn; lia|]. unfold inc_ref. rewrite Hfr. exists (Out, Hold 2). split; [|apply (hold_ret i Copy); by left].
  eapply (move s); [done|exact Hi|..]; cbn [CtrModel.base fields hands count freed fst].
  - rewrite list_insert_id by (by apply (fst_at _ _ _ Hi)). apply HR.
  - rewrite (omap_upd0 fld ls i _ (Out, Hold 2) Hi) by done. apply HR.
  - cbn. lia.
  - rewrite (bool_decide_false (count s = 0)) by lia. done.
  - done.
  - done.
Qed.
Lemma drop_ok i : Rruns i Drop drop_token (Out, Hold 1).
Proof.
  apply wpa_act; [done|]. intros s ls Hi HR. destruct (alive _ _ _ _ HR Hi) as [Hc Hfr]; [left; cbn; lia|]. unfold dec_ref. rewrite Hfr. destruct (count s) as [|n] eqn:En; [lia|].
  assert (forall mk, kept (Out, mk) = 0 -> is_last (Out, mk) = bool_decide (n = 0) -> RInv (Shared (base s) n false (fields s) (hands s)) (<[i := (Out, mk)]> ls)) as Hgo.
  { intros mk Hk Hl. eapply (move s); [done|exact Hi|..]; cbn [CtrModel.base fields hands count freed fst].
    - rewrite list_insert_id by (by apply (fst_at _ _ _ Hi)). apply HR.
    - rewrite (omap_upd0 fld ls i _ (Out, mk) Hi) by done. apply HR.
    - rewrite En, Hk. cbn. lia.
    - rewrite Hl, En, Hfr. cbn. by destruct (bool_decide (n = 0)).
    - done.
    - done. }
  destruct (bool_decide (n = 0)) eqn:E0.
  - exists (Out, Last). split; [by apply Hgo|]. clear. apply wpa_act; [done|]. intros s ls Hi HR. destruct (dispose_move _ _ _ _ (Out, Hold 0) HR Hi) as (s'&->&HR'); try done. exists (Out, Hold 0). split; [done|]. apply (hold_ret i Drop). by right.
  - exists (Out, Hold 0). split; [by apply Hgo|]. apply (hold_ret i Drop). by right.
Qed.
Lemma call_ok i o s s' ls t : ls !! i = Some t -> t = (Out, Plain 0) -> RInv s ls -> calls counted i o s = Some s' -> exists t', RInv s' (<[i := t']> ls) /\ Rruns i o (code counted i o) t'.
Proof.
  intros Hi -> HR. cbn [calls counted]. destruct (decide (lent o <= hands s)) as [Hle|]; [|done]. destruct o as [o| |].
  - destruct (calls token i o (base s)) as [b|] eqn:Ecall; [|done]. intros [= <-]. destruct (is_dispose o) eqn:Ed.
    + destruct o as [| |r|]; try done. exists (U0 r, Plain 0). split; [|apply dispose_ok].
      pose proof Ecall as Em. cbn [calls token] in Em. destruct (may_call (Dispose r) (hist (base s))) eqn:Hm; [|done]. injection Em as <-. cbn in Hm. apply bool_decide_eq_true in Hm.
      pose proof (dispose_call b0 i r (base s) ls.*1 (fst_at _ _ _ Hi) (r_base _ _ HR) Hm) as HI'. pose proof (held_nodup _ _ _ (r_base _ _ HR)) as (Hnd&_&_)%NoDup_app. pose proof (filter_perm _ _ Hnd Hm) as Hp.
      eapply (move s); [done|exact Hi|done|..]; cbn [CtrModel.base fields hands count freed fst set_hands set_base].
      * rewrite (omap_gain fld ls i _ (U0 r, Plain 0) r Hi eq_refl eq_refl). rewrite (r_fields _ _ HR). cbn [hist set_hist handles]. rewrite Hp at 1. by rewrite <-Permutation_middle.
      * cbn. lia.
      * done.
      * apply HR.
      * done.
    + destruct (CtokProofs.call_ok b0 i o (base s) b ls.*1 Out (fst_at _ _ _ Hi) eq_refl (r_base _ _ HR) Ecall) as (l'&HI'&Hw). exists (l', Plain (lent (Use o))).
      pose proof (wpa_unfold _ _ _ _ _ _ _ _ _ Hw) as [[]|[[_ Hp] _]]. destruct (place_other _ _ _ Ed Hp) as (Hdi&Hln&_). split.
      * eapply (move s); [done|exact Hi|done|..]; cbn [CtrModel.base fields hands count freed fst set_hands set_base].
        -- assert (handles (hist b) = handles (hist (base s))) as ->. { cbn [calls token] in Ecall. destruct (may_call o (hist (base s))); [|done]. injection Ecall as <-. by destruct o. }
           rewrite (omap_upd0 fld ls i _ (l', Plain (lent (Use o))) Hi) by (by rewrite (fld_other l')). apply HR.
        -- change (kept (Out, Plain 0)) with 0. change (kept (l', Plain (lent (Use o)))) with (lent (Use o)). cbn [lent] in *. lia.
        -- done.
        -- apply HR.
        -- intros Hn. by apply (needs_other o l').
      * assert (code counted i (Use o) = on_token (code token i o) (cont o)) as -> by (by destruct o). apply use_ok; [done..|]. destruct (lends o) eqn:El; [by left|right]. destruct o as [[]|[]| |[]]; try done; by eexists.
  - intros [= <-]. exists (Out, Hold 1). split; [|apply copy_ok]. eapply (move s); [done|exact Hi|..]; cbn [CtrModel.base fields hands count freed fst set_hands].
    + rewrite list_insert_id by (by apply (fst_at _ _ _ Hi)). apply HR.
    + rewrite (omap_upd0 fld ls i _ (Out, Hold 1) Hi) by done. apply HR.
    + cbn in Hle |- *. lia.
    + done.
    + apply HR.
    + done.
  - intros [= <-]. exists (Out, Hold 1). split; [|apply drop_ok]. eapply (move s); [done|exact Hi|..]; cbn [CtrModel.base fields hands count freed fst set_hands].
    + rewrite list_insert_id by (by apply (fst_at _ _ _ Hi)). apply HR.
    + rewrite (omap_upd0 fld ls i _ (Out, Hold 1) Hi) by done. apply HR.
    + cbn in Hle |- *. lia.
    + done.
    + apply HR.
    + done.
Qed.
Lemma init_ok n : RInv (Shared (Tok b0 [] None ∅ 0 [] []) 1 false ∅ 1) (replicate n (Out, Plain 0)).
Proof.
  split; cbn.
  - rewrite fmap_replicate. apply CtokProofs.init_ok.
  - by rewrite omap_replicate.
  - rewrite size_empty. unfold total. rewrite fmap_replicate. cbn. assert (sum_list (replicate n 0) = 0) as -> by (by induction n). done.
  - by rewrite cnt_replicate.
  - done.
  - intros j t Hj. apply lookup_replicate in Hj as [-> _]. done.
Qed.
Section reached.
Context (m1 m2 : bool) (s0 : shared) (n : nat) (c : shared * list (thread shared rop res)) (Hcr : created_token b0 m1 m2 = Some s0) (Hr : reachable counted s0 n c).
Lemma reach : conf_ok counted RInv Ridle Rblk Rshape c.
Proof using Hcr Hr.
  assert (s0 = Shared (Tok b0 [] None ∅ 0 [] []) 1 false ∅ 1) as E. { unfold created_token, cancellation_token_create in Hcr. destruct m1, m2; cbn in Hcr; try done. by destruct b0; injection Hcr as <-. }
  rewrite E in Hr. eapply (reach_ok counted RInv Ridle Rblk Rshape) with (l0 := (Out, Plain 0)); [exact call_ok|done|done|apply init_ok|exact Hr].
Qed.
Lemma no_crash i : ~ crashed c i.
Proof using Hcr Hr. eapply ok_no_crash, reach. Qed.
Lemma history later e before : hist (base c.1) = later ++ e :: before -> event_ok b0 (regs (base c.1)) e before.
Proof using Hcr Hr. intros Hh. destruct reach as (ls&_&HI&_). pose proof (i_ev _ _ _ (r_base _ _ HI)) as Ha. rewrite Hh in Ha. by eapply all_ok_at. Qed.
Lemma when_freed : freed c.1 = true ->
  hands c.1 = 0 /\ fields c.1 = ∅ /\ handles (hist (base c.1)) = [] /\ targets (base c.1) = [] /\ reading (base c.1) = None /\ forall j o p, c.2 !! j = Some (Running (Use o) p) -> lent (Use o) = 0.
Proof using Hcr Hr.
  intros Hf. destruct reach as (ls&Hlen&HR&Hts). destruct (nobody _ _ HR (r_freed _ _ HR Hf)) as (H1&H2&H3&H4&H5&H6). split_and!; try done. intros j o p Hj.
  assert (exists t, ls !! j = Some t) as [t Ht] by (apply lookup_lt_is_Some_2; rewrite Hlen; by eapply lookup_lt_Some). pose proof (ok_shape _ _ _ _ _ _ _ _ _ (Hts _ _ _ Hj Ht)) as Hsh.
  specialize (H6 _ _ Ht). destruct o; cbn in Hsh |- *; congruence.
Qed.
(** The registrations in the hands of users are there, and so is the token; those whose disposal has returned are not in their hands. *)
Lemma in_hands a : a ∈ handles (hist (base c.1)) -> is_Some (blocks (base c.1) !! a) /\ a ∈ fields c.1 /\ a ∈ tr <$> targets (base c.1) /\ freed c.1 = false /\ a ∉ disposed (hist (base c.1)).
Proof using Hcr Hr.
  intros Ha. destruct reach as (ls&Hlen&HR&Hts). pose proof (r_base _ _ HR) as HI.
  assert (a ∈ tr <$> targets (base c.1)) as Ht by (rewrite (i_link _ _ _ HI), elem_of_app; by left).
  assert (a ∈ fields c.1) as Hf by (rewrite <-elem_of_elements, (r_fields _ _ HR), elem_of_app; by left).
  split_and!; try done.
  - apply elem_of_dom. rewrite <-elem_of_elements, (i_own _ _ _ HI), elem_of_app. by left.
  - destruct (freed c.1) eqn:E; [|done]. destruct (when_freed E) as (_&_&H&_). by rewrite H in Ha; apply elem_of_nil in Ha.
  - intros Hd. by apply (i_gone _ _ _ HI) in Hd as [_ ?].
Qed.
Lemma when_gone : (forall j t, c.2 !! j = Some t -> t = Idle) -> count c.1 = hands c.1 + length (handles (hist (base c.1))) /\ (freed c.1 = true <-> count c.1 = 0) /\ elements (fields c.1) ≡ₚ handles (hist (base c.1)) /\
  elements (dom (blocks (base c.1))) ≡ₚ handles (hist (base c.1)) /\ tr <$> targets (base c.1) ≡ₚ handles (hist (base c.1)).
Proof using Hcr Hr.
  intros Hid. destruct reach as (ls&Hlen&HR&Hts). assert (forall j l, ls !! j = Some l -> l = (Out, Plain 0)) as Hall.
  { intros j l Hj. assert (exists t, c.2 !! j = Some t) as [t Ht] by (apply lookup_lt_is_Some_2; rewrite <-Hlen; by eapply lookup_lt_Some). specialize (Hts _ _ _ Ht Hj). by rewrite (Hid _ _ Ht) in Hts. }
  assert (forall j l, ls.*1 !! j = Some l -> l = Out) as Hall'. { intros j l Hj. rewrite list_lookup_fmap in Hj. destruct (ls !! j) as [t|] eqn:E; [|done]. rewrite (Hall _ _ E) in Hj. by injection Hj as <-. }
  assert (elements (fields c.1) ≡ₚ handles (hist (base c.1))) as Hf. { rewrite (r_fields _ _ HR), omap_none, app_nil_r; [done|]. intros j l Hj. by rewrite (Hall _ _ Hj). }
  assert (total ls = 0) as Ht. { clear -Hall. unfold total. induction ls as [|t ls IH]; [done|]. cbn. rewrite (Hall 0 t eq_refl). apply IH. intros j l Hj. by apply (Hall (S j)). }
  split_and!; [|split|done|..].
  - rewrite (r_count _ _ HR), Ht. assert (size (fields c.1) = length (elements (fields c.1))) as -> by done. rewrite Hf. lia.
  - apply HR.
  - intros Hc. destruct (freed c.1) eqn:E; [done|]. pose proof (r_last _ _ HR) as Hl. rewrite (bool_decide_true (count c.1 = 0)), E in Hl by done. cbn in Hl. destruct (cnt_ex is_last ls) as (j&t&Hj&Hlt); [lia|]. by rewrite (Hall _ _ Hj) in Hlt.
  - rewrite (i_own _ _ _ (r_base _ _ HR)), omap_none, app_nil_r; [done|]. intros j l Hj. by rewrite (Hall' _ _ Hj).
  - rewrite (i_link _ _ _ (r_base _ _ HR)), omap_none, app_nil_r; [done|]. intros j l Hj. by rewrite (Hall' _ _ Hj).
Qed.
Lemma no_deadlock i : blocked c i -> exists (j : nat) (o : rop) (p : prog shared res), c.2 !! j = Some (Running o p) /\ ~ blocked c j.
Proof using Hcr Hr.
  intros Hb. destruct reach as (ls&Hlen&HR&Hts). destruct (ok_blocked _ _ _ _ _ _ _ _ Hlen HR Hts Hb) as (t0&_&_&Hrd).
  destruct (reading (base c.1)) as [j|] eqn:E; [|done]. apply (i_read _ _ _ (r_base _ _ HR)) in E as (lj&Hj&Hlj). rewrite list_lookup_fmap in Hj. destruct (ls !! j) as [t1|] eqn:Ej; [|done]. cbn in Hj. injection Hj as <-.
  assert (exists t, c.2 !! j = Some t) as [t Ht] by (apply lookup_lt_is_Some_2; rewrite <-Hlen; by eapply lookup_lt_Some).
  pose proof (Hts _ _ _ Ht Ej) as Hok. destruct t as [|o p]; [cbn in Hok; by subst t1|]. exists j, o, p. split; [done|]. intros Hbj.
  destruct (ok_blocked _ _ _ _ _ _ _ _ Hlen HR Hts Hbj) as (t'&Ht'&Hx&_). rewrite Ej in Ht'. simplify_eq. congruence.
Qed.
End reached.
End b0.
