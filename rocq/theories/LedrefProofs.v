(** Proofs about LedrefModel.v. *)
From Verif Require Import Common LedgerModel LedgerSpec LedgerProofs LedrefModel LedrefSpec.
Local Open Scope Z_scope.

Lemma shape_self o h w rs : shape o h w rs -> h ∈ rs.*1.
Proof. destruct w; cbn [shape]; [intros (?&?&_&->)|intros (?&_&->)|intros (?&_&->)|intros (?&?&_&_&->)|intros (?&?&_&_&->)|intros (?&_&->)]; set_solver. Qed.
Lemma nodup_es (es : list ent) : NoDup (flat_map (fun e => e.2.*1) es) -> (forall e, e ∈ es -> e.1.1 ∈ e.2.*1) -> NoDup es.*1.*1.
Proof.
  induction es as [|e es IH]; cbn; [constructor|]. intros (_&Hd&Hn)%NoDup_app Hs. constructor; [|apply IH; [done|intros; apply Hs; set_solver]].
  intros ([h w]&He&((e'&rs)&E&Hin)%elem_of_list_fmap)%elem_of_list_fmap. apply (Hd e.1.1); [apply Hs; set_solver|]. apply elem_of_list_In, in_flat_map. exists (e', rs). split; [by apply elem_of_list_In|].
  apply elem_of_list_In. rewrite He, E. apply (Hs (e', rs)). set_solver.
Qed.
Lemma inv_nodup refs0 s l : Inv refs0 s l -> NoDup l.*1.
Proof.
  intros (_&_&es&->&Hp&Hs). apply nodup_es; [|intros e He; eapply shape_self; by apply Hs]. rewrite <-fst_flat, <-Hp. apply NoDup_fst_map_to_list.
Qed.
Definition count (x : id * what) (l : list (id * what)) : nat := length (filter (fun y => y = x) l).
Lemma count_cons x y l : count x (y :: l) = ((if decide (y = x) then 1 else 0) + count x l)%nat.
Proof. unfold count. rewrite filter_cons. by case_decide. Qed.
Lemma count_perm x l l' : l ≡ₚ l' -> count x l = count x l'.
Proof. intros H. unfold count. by rewrite H. Qed.
Lemma count_none x l : count x l = 0%nat -> x ∉ l.
Proof. unfold count. intros H Hx. apply nil_length_inv in H. assert (x ∈ filter (fun y => y = x) l) as E by (by apply elem_of_list_filter). rewrite H in E. set_solver. Qed.
Lemma count_pos x l : count x l <> 0%nat -> x ∈ l.
Proof. induction l as [|y l IH]; [done|]. rewrite count_cons. case_decide; [subst; set_solver|]. intros Hn. apply elem_of_cons. right. apply IH. lia. Qed.

Definition SInv (refs0 : nat -> nat) (t : shared) (l : list (id * what)) : Prop :=
  exists l', Inv refs0 (led t) l' /\ (forall x, x ∈ l' <-> x ∈ l) /\ forall h w, (h, w) ∈ l' -> counts t !! h = Some (count (h, w) l).
Lemma nodup_key (l : list (id * what)) h w w' : NoDup l.*1 -> (h, w) ∈ l -> (h, w') ∈ l -> w = w'.
Proof.
  induction l as [|[h0 w0] l IH]; cbn; [set_solver|]. intros [N1 N2]%NoDup_cons [E|H1]%elem_of_cons [E'|H2]%elem_of_cons; simplify_eq; [done| | |by apply IH].
  - exfalso. apply N1. apply elem_of_list_fmap. by exists (h0, w').
  - exfalso. apply N1. apply elem_of_list_fmap. by exists (h0, w).
Qed.
Lemma copy_ok refs0 t l h w : SInv refs0 t l -> (h, w) ∈ l -> exists t', copy h t = Done (tt, t') /\ SInv refs0 t' ((h, w) :: l).
Proof.
  intros (l'&Hi&Hm&Hc) Hin. unfold copy. rewrite (Hc h w) by (by apply Hm). eexists. split; [done|]. exists l'. split_and!; [done|set_solver|].
  intros h' w' Hx. cbn [counts]. rewrite count_cons. destruct (decide (h = h')) as [->|N].
  - rewrite lookup_insert. assert (w = w') as -> by (eapply nodup_key; [by eapply inv_nodup|by apply Hm|done]). by rewrite decide_True.
  - rewrite lookup_insert_ne by done. rewrite decide_False by congruence. by apply Hc.
Qed.
Lemma give_up_ok refs0 t l1 h w l2 : SInv refs0 t (l1 ++ (h, w) :: l2) -> exists t', give_up w h t = Done (tt, t') /\ SInv refs0 t' (l1 ++ l2).
Proof.
  intros (l'&Hi&Hm&Hc). assert ((h, w) ∈ l') as Hin by (apply Hm; set_solver). pose proof (inv_nodup _ _ _ Hi) as Hn.
  assert (forall x, count x (l1 ++ (h, w) :: l2) = ((if decide ((h, w) = x) then 1 else 0) + count x (l1 ++ l2))%nat) as Hcc.
  { intros x. rewrite <-count_cons. apply count_perm. by rewrite <-Permutation_middle. }
  unfold give_up. rewrite (Hc h w) by done. rewrite Hcc, decide_True by done. cbn [Nat.add]. destruct (count (h, w) (l1 ++ l2)) as [|c] eqn:E.
  - apply count_none in E. apply elem_of_list_split in Hin as (m1&m2&->). destruct (inv_destroy _ _ _ _ _ _ Hi) as (s'&Hd&Hi'). rewrite Hd. eexists. split; [done|].
    rewrite fmap_app, fmap_cons in Hn. assert (forall w', (h, w') ∉ m1 ++ m2) as Hno.
    { intros w' Hx. rewrite <-Permutation_middle in Hn. apply NoDup_cons in Hn as [N _]. apply N. rewrite <-fmap_app. apply elem_of_list_fmap. by exists (h, w'). }
    exists (m1 ++ m2). split_and!; [done| |].
    + intros x. specialize (Hm x). rewrite elem_of_app, elem_of_cons, elem_of_app, elem_of_cons in Hm. rewrite !elem_of_app. rewrite elem_of_app in E. specialize (Hno w). rewrite elem_of_app in Hno. split.
      * intros Hx. destruct (proj1 Hm) as [?|[->|?]]; [destruct Hx; auto|auto|by destruct Hno|auto].
      * intros Hx. destruct (proj2 Hm) as [?|[->|?]]; [destruct Hx; auto|auto|by destruct E|auto].
    + intros h' w' Hx. cbn [counts]. rewrite lookup_delete_ne by (intros <-; by eapply Hno). rewrite (Hc h' w') by (set_solver). rewrite Hcc, decide_False; [done|]. intros [= -> ->]. by eapply Hno.
  - eexists. split; [done|]. exists l'. split_and!; [done| |].
    + intros x. rewrite (Hm x). rewrite elem_of_app, elem_of_cons, elem_of_app. assert ((h, w) ∈ l1 ++ l2) as H by (apply count_pos; lia). rewrite elem_of_app in H. naive_solver.
    + intros h' w' Hx. cbn [counts]. destruct (decide (h = h')) as [->|N].
      * rewrite lookup_insert. assert (w = w') as <- by (eapply nodup_key; eauto). by rewrite E.
      * rewrite lookup_insert_ne by done. rewrite (Hc h' w') by done. rewrite Hcc, decide_False by congruence. done.
Qed.
Lemma new_ok refs0 t l w b1 b2 b3 : SInv refs0 t l -> exists r t', new w b1 b2 b3 t = Done (r, t') /\ (is_Some r <-> succeeds w b1 b2 b3 = true) /\ SInv refs0 t' (match r with Some h => (h, w) :: l | None => l end).
Proof.
  intros (l'&Hi&Hm&Hc). pose proof (create_ok (led t) w b1 b2 b3 (proj1 Hi)) as H. unfold new. destruct (succeeds w b1 b2 b3).
  - destruct H as (h&s&->&Hg). pose proof (inv_grown _ _ _ _ _ _ Hi Hg) as Hi'. pose proof (inv_nodup _ _ _ Hi') as Hn. cbn in Hn. apply NoDup_cons in Hn as [N _].
    assert (forall w', (h, w') ∉ l') as Hno. { intros w' Hx. apply N. apply elem_of_list_fmap. by exists (h, w'). }
    eexists _, _. split; [done|]. split; [split; [done|by eexists]|]. exists ((h, w) :: l'). split_and!; [done|set_solver|].
    intros h' w' Hx. cbn [counts]. rewrite count_cons. apply elem_of_cons in Hx as [[= -> ->]|Hx].
    + rewrite lookup_insert, decide_True by done. destruct (count (h, w) l) eqn:E; [done|]. exfalso. apply (Hno w), Hm, count_pos. lia.
    + rewrite lookup_insert_ne by (intros <-; by eapply Hno). rewrite decide_False by (intros [= -> ->]; by eapply Hno). by apply Hc.
  - destruct H as (s&->&Hs). eexists _, _. split; [done|]. split; [split; [by intros []|done]|]. exists l'. split_and!; [by eapply inv_same|done|done].
Qed.
Lemma sharing_inv refs0 t l : sharing refs0 t l -> SInv refs0 t l.
Proof.
  induction 1 as [|t l w b1 b2 b3 h t' _ IH Hc|t l w b1 b2 b3 t' _ IH Hc|t l h w t' _ IH Hin _ Hc|t l1 h w l2 t' _ IH Hc].
  - exists []. split_and!; [apply history_inv; constructor|done|]. intros h w []%elem_of_nil.
  - destruct (new_ok _ _ _ w b1 b2 b3 IH) as (r&t2&H1&_&H2). rewrite Hc in H1. by simplify_eq.
  - destruct (new_ok _ _ _ w b1 b2 b3 IH) as (r&t2&H1&_&H2). rewrite Hc in H1. by simplify_eq.
  - destruct (copy_ok _ _ _ _ _ IH Hin) as (t2&H1&H2). rewrite Hc in H1. by simplify_eq.
  - destruct (give_up_ok _ _ _ _ _ _ IH) as (t2&H1&H2). rewrite Hc in H1. by simplify_eq.
Qed.
Lemma total_perm f l l' : l ≡ₚ l' -> total f l = total f l'.
Proof. induction 1 as [|x l l' _ IH|x y l|l1 l2 l3 _ IH1 _ IH2]; unfold total in *; cbn; [done|by rewrite IH|lia|congruence]. Qed.
Lemma inv_existing refs0 s l k : Inv refs0 s l -> existing k s = total (fun w => owns w k) l.
Proof.
  intros (_&_&es&->&Hp&Hs). unfold existing. rewrite Hp. clear Hp. induction es as [|e es IH]; [done|]. cbn [flat_map]. rewrite filter_app, app_length, IH by (intros; apply Hs; set_solver).
  rewrite (shape_owns _ _ _ _ k (Hs e ltac:(set_solver))). by destruct e as [[]].
Qed.
Lemma referenced_ok refs0 t l : SInv refs0 t l -> exists l', l' ≡ₚ referenced l /\ Inv refs0 (led t) l'.
Proof.
  intros (l'&Hi&Hm&_). exists l'. split; [|done]. apply NoDup_Permutation; [eapply NoDup_fmap_1; by eapply inv_nodup|apply NoDup_remove_dups|]. intros x. unfold referenced. by rewrite elem_of_remove_dups.
Qed.
