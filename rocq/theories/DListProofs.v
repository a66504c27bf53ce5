From Verif Require Import Common DListModel DListSpec.
Local Open Scope cmonad_scope.

Definition set_f (p v : addr) (h : dheap) : dheap :=
  match h !! p with Some (_, b) => <[p := (v, b)]> h | None => h end.
Definition set_b (p v : addr) (h : dheap) : dheap :=
  match h !! p with Some (f, _) => <[p := (f, v)]> h | None => h end.

Definition mapped (h : dheap) (p : addr) : Prop := is_Some (h !! p).

Lemma flink_mapped h p f : flink h p = Some f -> mapped h p.
Proof. unfold flink, mapped. destruct (h !! p); simpl; [intros _; by eexists|discriminate]. Qed.
Lemma blink_mapped h p f : blink h p = Some f -> mapped h p.
Proof. unfold blink, mapped. destruct (h !! p); simpl; [intros _; by eexists|discriminate]. Qed.
Lemma mapped_set_f h p v q : mapped h q -> mapped (set_f p v h) q.
Proof.
  unfold mapped, set_f. intros [x Hx]. destruct (h !! p) as [[f b]|] eqn:E; [|eauto].
  destruct (decide (q = p)) as [->|]; [rewrite lookup_insert|rewrite lookup_insert_ne by done]; eauto.
Qed.
Lemma mapped_set_b h p v q : mapped h q -> mapped (set_b p v h) q.
Proof.
  unfold mapped, set_b. intros [x Hx]. destruct (h !! p) as [[f b]|] eqn:E; [|eauto].
  destruct (decide (q = p)) as [->|]; [rewrite lookup_insert|rewrite lookup_insert_ne by done]; eauto.
Qed.
Lemma lookup_set_f_ne h p v q : q <> p -> set_f p v h !! q = h !! q.
Proof. intros Hn. unfold set_f. destruct (h !! p) as [[f b]|]; [|done]. by rewrite lookup_insert_ne. Qed.
Lemma lookup_set_b_ne h p v q : q <> p -> set_b p v h !! q = h !! q.
Proof. intros Hn. unfold set_b. destruct (h !! p) as [[f b]|]; [|done]. by rewrite lookup_insert_ne. Qed.

Lemma flink_set_f h p v q : mapped h p ->
  flink (set_f p v h) q = if decide (q = p) then Some v else flink h q.
Proof.
  unfold flink, set_f. intros [[f b] E]. rewrite E. case_decide as H.
  - subst. by rewrite lookup_insert.
  - by rewrite lookup_insert_ne.
Qed.
Lemma blink_set_f h p v q : blink (set_f p v h) q = blink h q.
Proof.
  unfold blink, set_f. destruct (h !! p) as [[f b]|] eqn:E; [|done].
  destruct (decide (q = p)) as [->|]; [by rewrite lookup_insert, E|by rewrite lookup_insert_ne].
Qed.
Lemma blink_set_b h p v q : mapped h p ->
  blink (set_b p v h) q = if decide (q = p) then Some v else blink h q.
Proof.
  unfold blink, set_b. intros [[f b] E]. rewrite E. case_decide as H.
  - subst. by rewrite lookup_insert.
  - by rewrite lookup_insert_ne.
Qed.
Lemma flink_set_b h p v q : flink (set_b p v h) q = flink h q.
Proof.
  unfold flink, set_b. destruct (h !! p) as [[f b]|] eqn:E; [|done].
  destruct (decide (q = p)) as [->|]; [by rewrite lookup_insert, E|by rewrite lookup_insert_ne].
Qed.

Lemma run_wr_flink h p v : mapped h p -> wr_flink p v h = Done (tt, set_f p v h).
Proof. unfold wr_flink, set_f. intros [[f b] E]. by rewrite E. Qed.
Lemma run_wr_blink h p v : mapped h p -> wr_blink p v h = Done (tt, set_b p v h).
Proof. unfold wr_blink, set_b. intros [[f b] E]. by rewrite E. Qed.
Lemma run_rd_flink h p v : flink h p = Some v -> rd_flink p h = Done (v, h).
Proof. unfold flink, rd_flink. destruct (h !! p) as [[f b]|]; simpl; congruence. Qed.
Lemma run_rd_blink h p v : blink h p = Some v -> rd_blink p h = Done (v, h).
Proof. unfold blink, rd_blink. destruct (h !! p) as [[f b]|]; simpl; congruence. Qed.

Lemma links_app h l1 x l2 : forall a b,
  links h a (l1 ++ x :: l2) b <-> links h a l1 x /\ links h x l2 b.
Proof.
  induction l1 as [|y l1 IH]; intros a b; simpl; [tauto|]. rewrite IH. tauto.
Qed.

Lemma links_frame h h' l : forall a b,
  (forall p, p ∈ a :: l -> flink h' p = flink h p) ->
  (forall p, p = b \/ p ∈ l -> blink h' p = blink h p) ->
  links h a l b -> links h' a l b.
Proof.
  induction l as [|x l IH]; intros a b Hf Hb; simpl.
  - rewrite Hf by set_solver. rewrite Hb by set_solver. done.
  - intros (H1 & H2 & H3). rewrite Hf by set_solver. rewrite Hb by set_solver.
    repeat split; try done. apply IH; [|by intros; apply Hb; set_solver|done].
    intros; apply Hf; set_solver.
Qed.

Lemma links_mapped h l : forall a b p, links h a l b -> p ∈ a :: b :: l -> mapped h p.
Proof.
  induction l as [|x l IH]; intros a b p; simpl.
  - intros [H1 H2] Hp. apply elem_of_cons in Hp as [->|Hp]; [by eapply flink_mapped|].
    apply elem_of_list_singleton in Hp as ->. by eapply blink_mapped.
  - intros (H1 & H2 & H3) Hp. apply elem_of_cons in Hp as [->|Hp]; [by eapply flink_mapped|].
    eapply IH; [done|]. set_solver.
Qed.

Ltac mstep :=
  unfold bind at 1;
  first [ erewrite run_rd_flink by eauto | erewrite run_rd_blink by eauto
        | erewrite run_wr_flink by (repeat first [apply mapped_set_f | apply mapped_set_b]; eauto)
        | erewrite run_wr_blink by (repeat first [apply mapped_set_f | apply mapped_set_b]; eauto) ].

(** Discharge a goal about fields of a heap after several field writes. *)
Ltac msolve := repeat first [apply mapped_set_f | apply mapped_set_b]; eauto.
Ltac fields :=
  repeat first
    [ rewrite blink_set_f | rewrite flink_set_b
    | rewrite flink_set_f by msolve
    | rewrite blink_set_b by msolve ];
  repeat case_decide; try done; try (subst; done); try set_solver.

Definition frame (P : addr -> Prop) (h h' : dheap) : Prop :=
  (forall a, ~ P a -> h' !! a = h !! a) /\ (forall a, mapped h a <-> mapped h' a).

Lemma mapped_set_f_iff h p v q : mapped (set_f p v h) q <-> mapped h q.
Proof.
  split; [|apply mapped_set_f]. unfold mapped, set_f. destruct (h !! p) as [[f b]|] eqn:E; [|done].
  destruct (decide (q = p)) as [->|Hn].
  - intros _. rewrite E. by eexists.
  - by rewrite lookup_insert_ne.
Qed.
Lemma mapped_set_b_iff h p v q : mapped (set_b p v h) q <-> mapped h q.
Proof.
  split; [|apply mapped_set_b]. unfold mapped, set_b. destruct (h !! p) as [[f b]|] eqn:E; [|done].
  destruct (decide (q = p)) as [->|Hn].
  - intros _. rewrite E. by eexists.
  - by rewrite lookup_insert_ne.
Qed.

Ltac frame_solve :=
  split;
  [ let a := fresh "a" in let Ha := fresh "Ha" in
    intros a Ha; repeat first [rewrite lookup_set_f_ne by set_solver | rewrite lookup_set_b_ne by set_solver]; done
  | intros ?; rewrite ?mapped_set_f_iff, ?mapped_set_b_iff; repeat first [rewrite mapped_set_f_iff | rewrite mapped_set_b_iff]; done ].

Lemma InitializeListHead_ok h hd : mapped h hd ->
  exists h', DList_InitializeListHead hd h = Done (tt, h') /\ is_dlist h' hd [] /\ frame (eq hd) h h'.
Proof.
  intros Hm. eexists. split; [|split].
  - unfold DList_InitializeListHead. mstep. apply run_wr_flink. msolve.
  - split; [apply NoDup_singleton|]. simpl. split; fields.
  - frame_solve.
Qed.

Lemma InsertTailList_ok h hd l e : is_dlist h hd l -> mapped h e -> e ∉ hd :: l ->
  exists h', DList_InsertTailList hd e h = Done (tt, h') /\ is_dlist h' hd (l ++ [e]) /\
             frame (fun a => a = e \/ a ∈ hd :: l) h h'.
Proof.
  intros [Hnd Hl] Hm He. apply NoDup_cons in Hnd as [Hhd Hnd].
  assert (Hmh : mapped h hd) by (eapply links_mapped; [done|set_solver]).
  assert (Hnd' : NoDup (hd :: l ++ [e])).
  { apply NoDup_cons. split; [set_solver|]. apply NoDup_app. split; [done|]. split; [set_solver|]. apply NoDup_singleton. }
  destruct l as [|y l0 _] using rev_ind.
  - simpl in Hl. destruct Hl as [Hf Hb]. eexists. split; [|split].
    + unfold DList_InsertTailList. mstep. mstep. mstep. mstep. apply run_wr_blink. msolve.
    + split; [done|]. simpl. repeat split; fields.
    + frame_solve.
  - apply links_app in Hl as [Hl1 [Hf Hb]].
    assert (Hmy : mapped h y) by (by eapply flink_mapped).
    apply NoDup_app in Hnd as (Hn1 & Hn2 & _).
    eexists. split; [|split].
    + unfold DList_InsertTailList. mstep. mstep. mstep. mstep. apply run_wr_blink. msolve.
    + split; [done|]. rewrite <- app_assoc. simpl. apply links_app. split.
      * eapply links_frame; [..|exact Hl1].
        -- intros p Hp. fields.
        -- intros p Hp. fields.
      * simpl. repeat split; fields.
    + frame_solve.
Qed.

Lemma InsertHeadList_ok h hd l e : is_dlist h hd l -> mapped h e -> e ∉ hd :: l ->
  exists h', DList_InsertHeadList hd e h = Done (tt, h') /\ is_dlist h' hd (e :: l) /\
             frame (fun a => a = e \/ a ∈ hd :: l) h h'.
Proof.
  intros [Hnd Hl] Hm He. apply NoDup_cons in Hnd as [Hhd Hnd].
  assert (Hmh : mapped h hd) by (eapply links_mapped; [done|set_solver]).
  assert (Hnd' : NoDup (hd :: e :: l)).
  { apply NoDup_cons. split; [set_solver|]. apply NoDup_cons. split; [set_solver|done]. }
  destruct l as [|y l0].
  - simpl in Hl. destruct Hl as [Hf Hb]. eexists. split; [|split].
    + unfold DList_InsertHeadList. mstep.
      unfold bind at 1. erewrite run_rd_flink; [|instantiate (1 := hd); fields].
      mstep.
      unfold bind at 1. erewrite run_rd_flink; [|instantiate (1 := hd); fields].
      mstep. apply run_wr_flink. msolve.
    + split; [done|]. simpl. repeat split; fields.
    + frame_solve.
  - simpl in Hl. destruct Hl as (Hf & Hb & Hl).
    assert (Hmy : mapped h y) by (by eapply blink_mapped).
    apply NoDup_cons in Hnd as [Hn1 Hn2].
    eexists. split; [|split].
    + unfold DList_InsertHeadList. mstep.
      unfold bind at 1. erewrite run_rd_flink; [|instantiate (1 := y); fields].
      mstep.
      unfold bind at 1. erewrite run_rd_flink; [|instantiate (1 := y); fields].
      mstep. apply run_wr_flink. msolve.
    + split; [done|]. simpl. repeat split; [fields..|].
      eapply links_frame; [..|exact Hl].
      * intros p Hp. fields.
      * intros p Hp. fields.
    + frame_solve.
Qed.

Lemma remove_one_notin e l : e ∉ l -> remove_one e l = l.
Proof.
  unfold remove_one. induction l as [|x l IH]; intros H; [done|].
  rewrite filter_cons_True by set_solver. f_equal. apply IH. set_solver.
Qed.
Lemma remove_one_mid e l1 l2 : NoDup (l1 ++ e :: l2) -> remove_one e (l1 ++ e :: l2) = l1 ++ l2.
Proof.
  intros H. apply NoDup_app in H as (H1 & H2 & H3). apply NoDup_cons in H3 as [H3 H4].
  unfold remove_one. rewrite filter_app, filter_cons_False by naive_solver.
  f_equal; apply remove_one_notin; set_solver.
Qed.

(** Removing an entry that sits between two known neighbours. *)
Lemma RemoveEntryList_ok h hd l1 e l2 : is_dlist h hd (l1 ++ e :: l2) ->
  exists h', DList_RemoveEntryList e h = Done (bool_decide (l1 ++ l2 = []), h') /\ is_dlist h' hd (l1 ++ l2) /\
             frame (fun a => a ∈ hd :: l1 ++ e :: l2) h h'.
Proof.
  intros [Hnd Hl]. apply NoDup_cons in Hnd as [Hhd Hnd].
  assert (Hm : forall p, p ∈ hd :: l1 ++ e :: l2 -> mapped h p).
  { intros p Hp. eapply links_mapped; [done|set_solver]. }
  apply NoDup_app in Hnd as (Hn1 & Hn2 & Hn3). apply NoDup_cons in Hn3 as [Hn3 Hn4].
  assert (Hnd' : NoDup (hd :: l1 ++ l2)).
  { apply NoDup_cons. split; [set_solver|]. apply NoDup_app. split; [done|]. split; [set_solver|done]. }
  apply links_app in Hl as [Hl1 Hl2].
  assert (He : mapped h e) by (apply Hm; set_solver).
  assert (Hh : mapped h hd) by (apply Hm; set_solver).
  destruct l1 as [|p l1 _] using rev_ind; destruct l2 as [|s l2].
  - simpl in *. destruct Hl1 as [Hf1 Hb1], Hl2 as [Hf2 Hb2]. eexists. split; [|split].
    + unfold DList_RemoveEntryList. mstep. mstep. mstep. mstep. unfold ret. repeat f_equal.
      rewrite !bool_decide_eq_true_2 by done. done.
    + split; [done|]. simpl. split; fields.
    + frame_solve.
  - simpl in *. destruct Hl1 as [Hf1 Hb1], Hl2 as (Hf2 & Hb2 & Hl2).
    assert (Hs : mapped h s) by (apply Hm; set_solver).
    eexists. split; [|split].
    + unfold DList_RemoveEntryList. mstep. mstep. mstep. mstep. unfold ret. repeat f_equal.
      rewrite !bool_decide_eq_false_2; [done|set_solver..].
    + split; [done|]. simpl. split; [fields|]. split; [fields|].
      apply NoDup_cons in Hn4 as [Hn4 Hn5].
      eapply links_frame; [..|exact Hl2]; intros q Hq; fields.
    + frame_solve.
  - apply links_app in Hl1 as [Hl1 [Hf1 Hb1]]. simpl in *. destruct Hl2 as [Hf2 Hb2].
    assert (Hp : mapped h p) by (apply Hm; set_solver).
    apply NoDup_app in Hn1 as (Hn5 & Hn6 & _).
    eexists. split; [|split].
    + unfold DList_RemoveEntryList. mstep. mstep. mstep. mstep. unfold ret. repeat f_equal.
      rewrite !bool_decide_eq_false_2; [done| |set_solver]. destruct l1; done.
    + split; [done|]. rewrite app_nil_r. apply links_app. split.
      * eapply links_frame; [..|exact Hl1]; intros q Hq; fields.
      * simpl. split; fields.
    + frame_solve.
  - apply links_app in Hl1 as [Hl1 [Hf1 Hb1]]. simpl in *. destruct Hl2 as (Hf2 & Hb2 & Hl2).
    assert (Hp : mapped h p) by (apply Hm; set_solver).
    assert (Hs : mapped h s) by (apply Hm; set_solver).
    apply NoDup_app in Hn1 as (Hn5 & Hn6 & _).
    apply NoDup_cons in Hn4 as [Hn4 Hn7].
    eexists. split; [|split].
    + unfold DList_RemoveEntryList. mstep. mstep. mstep. mstep. unfold ret. repeat f_equal.
      rewrite !bool_decide_eq_false_2; [done| |set_solver]. destruct l1; done.
    + split; [done|]. rewrite <- app_assoc. simpl. apply links_app. split.
      * eapply links_frame; [..|exact Hl1]; intros q Hq; fields.
      * simpl. split; [fields|]. split; [fields|].
        eapply links_frame; [..|exact Hl2]; intros q Hq; fields.
    + frame_solve.
Qed.

(** The same ring seen from its first entry. *)
Lemma is_dlist_rotate h hd x l : is_dlist h hd (x :: l) -> is_dlist h x (l ++ [hd]).
Proof.
  intros [Hnd Hl]. simpl in Hl. destruct Hl as (H1 & H2 & H3). split.
  - apply NoDup_cons in Hnd as [Ha Hnd]. apply NoDup_cons in Hnd as [Hb Hnd].
    apply NoDup_cons. split; [set_solver|]. apply NoDup_app. split; [done|]. split; [set_solver|apply NoDup_singleton].
  - apply links_app. split; [done|]. simpl. done.
Qed.

Lemma DetachHead_ok h hd x l : is_dlist h hd (x :: l) ->
  exists h', DList_RemoveEntryList hd h = Done (bool_decide (l = []), h') /\ is_dlist h' x l /\
             frame (fun a => a ∈ hd :: x :: l) h h'.
Proof.
  intros H. apply is_dlist_rotate in H.
  destruct (RemoveEntryList_ok h x l hd []) as (h' & H1 & H2 & H3); [done|].
  rewrite app_nil_r in H1, H2. exists h'. split; [done|]. split; [done|].
  destruct H3 as [H3 H4]. split; [|done]. intros a Ha. apply H3. set_solver.
Qed.

Lemma RemoveHeadList_ok h hd x l : is_dlist h hd (x :: l) ->
  exists h', DList_RemoveHeadList hd h = Done (x, h') /\ is_dlist h' hd l /\
             frame (fun a => a ∈ hd :: x :: l) h h'.
Proof.
  intros [Hnd Hl].
  assert (Hm : forall p, p ∈ hd :: x :: l -> mapped h p).
  { intros p Hp. eapply links_mapped; [done|set_solver]. }
  assert (Hh : mapped h hd) by (apply Hm; set_solver).
  apply NoDup_cons in Hnd as [Hhd Hnd]. apply NoDup_cons in Hnd as [Hx Hnd].
  assert (Hnd' : NoDup (hd :: l)) by (apply NoDup_cons; split; [set_solver|done]).
  simpl in Hl. destruct Hl as (Hf & Hb & Hl). destruct l as [|s l].
  - simpl in Hl. destruct Hl as [Hf2 Hb2]. eexists. split; [|split].
    + unfold DList_RemoveHeadList. mstep. mstep. mstep. mstep. reflexivity.
    + split; [done|]. simpl. split; fields.
    + frame_solve.
  - simpl in Hl. destruct Hl as (Hf2 & Hb2 & Hl).
    assert (Hs : mapped h s) by (apply Hm; set_solver).
    apply NoDup_cons in Hnd as [Hs' Hnd].
    eexists. split; [|split].
    + unfold DList_RemoveHeadList. mstep. mstep. mstep. mstep. reflexivity.
    + split; [done|]. simpl. split; [fields|]. split; [fields|].
      eapply links_frame; [..|exact Hl]; intros q Hq; fields.
    + frame_solve.
Qed.

Lemma RemoveHeadList_empty h hd : is_dlist h hd [] ->
  exists h', DList_RemoveHeadList hd h = Done (hd, h') /\ is_dlist h' hd [] /\
             frame (fun a => a ∈ [hd]) h h'.
Proof.
  intros [Hnd [Hf Hb]].
  assert (Hh : mapped h hd) by (by eapply flink_mapped).
  eexists. split; [|split].
  - unfold DList_RemoveHeadList. mstep. mstep. mstep. mstep. reflexivity.
  - split; [done|]. simpl. split; fields.
  - frame_solve.
Qed.

Lemma RemoveTailList_ok h hd x l : is_dlist h hd (l ++ [x]) ->
  exists h', DList_RemoveTailList hd h = Done (x, h') /\ is_dlist h' hd l /\
             frame (fun a => a ∈ hd :: l ++ [x]) h h'.
Proof.
  intros [Hnd Hl].
  assert (Hm : forall p, p ∈ hd :: l ++ [x] -> mapped h p).
  { intros p Hp. eapply links_mapped; [done|set_solver]. }
  assert (Hh : mapped h hd) by (apply Hm; set_solver).
  apply NoDup_cons in Hnd as [Hhd Hnd]. apply NoDup_app in Hnd as (Hnd & Hx & _).
  assert (Hnd' : NoDup (hd :: l)) by (apply NoDup_cons; split; [set_solver|done]).
  apply links_app in Hl as [Hl [Hf Hb]]. destruct l as [|s l _] using rev_ind.
  - simpl in Hl. destruct Hl as [Hf2 Hb2]. eexists. split; [|split].
    + unfold DList_RemoveTailList. mstep. mstep. mstep. mstep. reflexivity.
    + split; [done|]. simpl. split; fields.
    + frame_solve.
  - apply links_app in Hl as [Hl [Hf2 Hb2]].
    assert (Hs : mapped h s) by (apply Hm; set_solver).
    apply NoDup_app in Hnd as (Hnd & Hs' & _).
    eexists. split; [|split].
    + unfold DList_RemoveTailList. mstep. mstep. mstep. mstep. reflexivity.
    + split; [done|]. apply links_app. split.
      * eapply links_frame; [..|exact Hl]; intros q Hq; fields.
      * simpl. split; fields.
    + frame_solve.
Qed.

Lemma RemoveTailList_empty h hd : is_dlist h hd [] ->
  exists h', DList_RemoveTailList hd h = Done (hd, h') /\ is_dlist h' hd [] /\
             frame (fun a => a ∈ [hd]) h h'.
Proof.
  intros [Hnd [Hf Hb]].
  assert (Hh : mapped h hd) by (by eapply flink_mapped).
  eexists. split; [|split].
  - unfold DList_RemoveTailList. mstep. mstep. mstep. mstep. reflexivity.
  - split; [done|]. simpl. split; fields.
  - frame_solve.
Qed.

Lemma AppendTailList_ok h hd l e rest : is_dlist h hd l -> is_dlist h e rest ->
  (forall a, a ∈ hd :: l -> a ∈ e :: rest -> False) ->
  exists h', DList_AppendTailList hd e h = Done (tt, h') /\ is_dlist h' hd (l ++ e :: rest) /\
             frame (fun a => a ∈ hd :: l \/ a ∈ e :: rest) h h'.
Proof.
  intros [Hnd1 Hl1] [Hnd2 Hl2] Hdj.
  assert (Hnd' : NoDup (hd :: l ++ e :: rest)).
  { change (NoDup ((hd :: l) ++ e :: rest)). apply NoDup_app. split; [done|]. split; [|done]. intros a ? ?. by eapply Hdj. }
  assert (Hm1 : forall p, p ∈ hd :: l -> mapped h p).
  { intros p Hp. eapply links_mapped; [exact Hl1|set_solver]. }
  assert (Hm2 : forall p, p ∈ e :: rest -> mapped h p).
  { intros p Hp. eapply links_mapped; [exact Hl2|set_solver]. }
  assert (Hh : mapped h hd) by (apply Hm1; set_solver).
  assert (He : mapped h e) by (apply Hm2; set_solver).
  apply NoDup_cons in Hnd1 as [Hhd Hnd1]. apply NoDup_cons in Hnd2 as [He' Hnd2].
  assert (Hdj' : hd <> e) by (intros ->; apply (Hdj e); set_solver).
  (* pointer to the end of each ring *)
  assert (H1 : exists p, blink h hd = Some p /\ p ∈ hd :: l /\ mapped h p /\ flink h p = Some hd /\
     forall h' nx, flink h' p = Some nx -> blink h' nx = Some p ->
        (forall q, q <> p -> q ∈ hd :: l -> flink h' q = flink h q) ->
        (forall q, q ∈ l -> blink h' q = blink h q) -> links h' hd l nx).
  { destruct l as [|p l _] using rev_ind.
    - destruct Hl1 as [Hf Hb]. exists hd. repeat split; try done; set_solver.
    - apply links_app in Hl1 as [Hl1 [Hf Hb]]. exists p. 
      apply NoDup_app in Hnd1 as (Hnd1 & Hp & _).
      repeat split; try done; [set_solver|apply Hm1; set_solver|].
      intros h' nx Hf' Hb' Hx Hy. apply links_app. split; [|done].
      eapply links_frame; [..|exact Hl1].
      + intros q Hq. apply Hx; set_solver.
      + intros q Hq. apply Hy; set_solver. }
  assert (H2 : exists p, blink h e = Some p /\ p ∈ e :: rest /\ mapped h p /\ flink h p = Some e /\
     forall h' nx, flink h' p = Some nx -> blink h' nx = Some p ->
        (forall q, q <> p -> q ∈ e :: rest -> flink h' q = flink h q) ->
        (forall q, q ∈ rest -> blink h' q = blink h q) -> links h' e rest nx).
  { destruct rest as [|p rest _] using rev_ind.
    - destruct Hl2 as [Hf Hb]. exists e. repeat split; try done; set_solver.
    - apply links_app in Hl2 as [Hl2 [Hf Hb]]. exists p. 
      apply NoDup_app in Hnd2 as (Hnd2 & Hp & _).
      repeat split; try done; [set_solver|apply Hm2; set_solver|].
      intros h' nx Hf' Hb' Hx Hy. apply links_app. split; [|done].
      eapply links_frame; [..|exact Hl2].
      + intros q Hq. apply Hx; set_solver.
      + intros q Hq. apply Hy; set_solver. }
  destruct H1 as (p1 & Hb1 & Hp1 & Hmp1 & Hf1 & K1), H2 as (p2 & Hb2 & Hp2 & Hmp2 & Hf2 & K2).
  assert (Hp12 : p1 <> p2) by (intros ->; by eapply Hdj).
  assert (Hq1 : forall q, q ∈ hd :: l -> q <> p2) by (intros q ? ->; by eapply Hdj).
  assert (Hq2 : forall q, q ∈ e :: rest -> q <> p1) by (intros q ? ->; by eapply Hdj).
  assert (Hq3 : forall q, q ∈ l -> q <> hd /\ q <> e).
  { intros q Hq. split; [by intros ->|]. intros ->. apply (Hdj e); [by right|by left]. }
  assert (Hq4 : forall q, q ∈ rest -> q <> e /\ q <> hd).
  { intros q Hq. split; [by intros ->|]. intros ->. apply (Hdj hd); [by left|by right]. }
  eexists. split; [|split].
  - unfold DList_AppendTailList. mstep. mstep. mstep.
    unfold bind at 1. erewrite run_rd_blink; [|rewrite blink_set_f; exact Hb2].
    mstep.
    unfold bind at 1. erewrite run_rd_blink;
      [|rewrite blink_set_b by msolve; rewrite decide_False by done; rewrite blink_set_f; exact Hb2].
    mstep. apply run_wr_blink. msolve.
  - split; [done|]. apply links_app. split.
    + apply K1.
      * rewrite flink_set_b, flink_set_f by msolve. rewrite decide_False by done.
        rewrite flink_set_b, flink_set_f by msolve. by rewrite decide_True.
      * rewrite blink_set_b by msolve. by rewrite decide_True.
      * intros q Hn Hq. rewrite flink_set_b, flink_set_f by msolve. rewrite decide_False by auto.
        rewrite flink_set_b, flink_set_f by msolve. by rewrite decide_False.
      * intros q Hq. destruct (Hq3 q Hq). rewrite blink_set_b by msolve. rewrite decide_False by done.
        rewrite blink_set_f, blink_set_b by msolve. rewrite decide_False by done. by rewrite blink_set_f.
    + apply K2.
      * rewrite flink_set_b, flink_set_f by msolve. by rewrite decide_True.
      * rewrite blink_set_b by msolve. rewrite decide_False by done.
        rewrite blink_set_f, blink_set_b by msolve. by rewrite decide_True.
      * intros q Hn Hq. rewrite flink_set_b, flink_set_f by msolve. rewrite decide_False by auto.
        rewrite flink_set_b, flink_set_f by msolve. by rewrite decide_False by auto.
      * intros q Hq. destruct (Hq4 q Hq). rewrite blink_set_b by msolve. rewrite decide_False by done.
        rewrite blink_set_f, blink_set_b by msolve. rewrite decide_False by done. by rewrite blink_set_f.
  - split.
    + intros a Ha.
      assert (a <> p1) by (intros ->; auto). assert (a <> p2) by (intros ->; auto).
      assert (a <> hd) by (intros ->; apply Ha; left; left).
      assert (a <> e) by (intros ->; apply Ha; right; left).
      rewrite lookup_set_b_ne, lookup_set_f_ne, lookup_set_b_ne, lookup_set_f_ne by done. done.
    + intros ?. repeat first [rewrite mapped_set_f_iff | rewrite mapped_set_b_iff]; done.
Qed.

Lemma is_dlist_frame P h h' hd l : is_dlist h hd l -> frame P h h' ->
  (forall a, a ∈ hd :: l -> ~ P a) -> is_dlist h' hd l.
Proof.
  intros [Hnd Hl] [Hf _] HP. split; [done|].
  eapply links_frame; [..|exact Hl].
  - intros p Hp. unfold flink. by rewrite Hf by auto.
  - intros p [->|Hp]; unfold blink; rewrite Hf; try done; apply HP; [by left|by right].
Qed.

Lemma holds_insert P h h' L hd l' :
  holds h L -> frame P h h' -> is_dlist h' hd l' ->
  (forall hd2 l2 a, L !! hd2 = Some l2 -> hd2 <> hd -> a ∈ hd2 :: l2 -> ~ P a /\ a ∉ hd :: l') ->
  holds h' (<[hd := l']> L).
Proof.
  intros [H1 H2] Hf Hd Hx. split.
  - intros hd2 l2 HL. apply lookup_insert_Some in HL as [[<- <-]|[Hne HL]]; [done|].
    eapply is_dlist_frame; [by apply H1|exact Hf|]. intros a Ha. by eapply Hx.
  - intros hd1 l1 hd2 l2 a HL1 HL2 Ha1 Ha2.
    apply lookup_insert_Some in HL1 as [[<- <-]|[Hne1 HL1]];
    apply lookup_insert_Some in HL2 as [[<- <-]|[Hne2 HL2]]; [done|..].
    + edestruct (Hx hd2 l2 a) as [_ ?]; [done|congruence|done|]. done.
    + edestruct (Hx hd1 l1 a) as [_ ?]; [done|congruence|done|]. done.
    + by eapply H2.
Qed.

Lemma holds_delete h L hd : holds h L -> holds h (delete hd L).
Proof.
  intros [H1 H2]. split.
  - intros hd2 l2 HL. apply lookup_delete_Some in HL as [? ?]. by apply H1.
  - intros ????? HL1 HL2. apply lookup_delete_Some in HL1 as [? ?], HL2 as [? ?]. by eapply H2.
Qed.

Lemma frame_weaken (P Q : addr -> Prop) h h' : (forall a, P a -> Q a) -> frame P h h' -> frame Q h h'.
Proof. intros HPQ [H1 H2]. split; [|done]. intros a Ha. apply H1. auto. Qed.

Lemma exec_ok h L o r L' : dspec (fun p => is_Some (h !! p)) L o r L' -> holds h L ->
  exists h', exec o h = Done (r, h') /\ holds h' L' /\ frame (touched L o) h h'.
Proof.
  intros Hs HL. pose proof HL as [H1 H2]. destruct Hs; simpl.
  - destruct (InitializeListHead_ok h hd) as (h' & E & Hd & Hf); [done|].
    exists h'. unfold bind. rewrite E. split; [done|]. split; [|by eapply frame_weaken; [|exact Hf]].
    eapply holds_insert; [done|exact Hf|done|].
    intros hd2 l2 a Hl2 Hne Ha. assert (a <> hd) by (intros ->; by eapply H0). set_solver.
  - destruct (InsertTailList_ok h hd l e) as (h' & E & Hd & Hf); [auto|done|by eapply H3|].
    exists h'. unfold bind. rewrite E. split; [done|]. split.
    + eapply holds_insert; [done|exact Hf|done|].
      intros hd2 l2 a Hl2 Hne Ha. assert (a <> e) by (intros ->; by eapply H3).
      assert (a ∉ hd :: l) by (intros ?; apply Hne; by eapply H2). set_solver.
    + eapply frame_weaken; [|exact Hf]. simpl. intros a [->|?]; [by left|right]. eauto.
  - destruct (InsertHeadList_ok h hd l e) as (h' & E & Hd & Hf); [auto|done|by eapply H3|].
    exists h'. unfold bind. rewrite E. split; [done|]. split.
    + eapply holds_insert; [done|exact Hf|done|].
      intros hd2 l2 a Hl2 Hne Ha. assert (a <> e) by (intros ->; by eapply H3).
      assert (a ∉ hd :: l) by (intros ?; apply Hne; by eapply H2). set_solver.
    + eapply frame_weaken; [|exact Hf]. simpl. intros a [->|?]; [by left|right]. eauto.
  - apply elem_of_list_split in H0 as (l1 & l2 & ->).
    destruct (RemoveEntryList_ok h hd l1 e l2) as (h' & E & Hd & Hf); [auto|].
    rewrite remove_one_mid. 2:{ apply H1 in H. destruct H as [H _]. by apply NoDup_cons in H as [_ ?]. }
    exists h'. unfold bind. rewrite E. split; [done|]. split.
    + eapply holds_insert; [done|exact Hf|done|].
      intros hd2 l3 a Hl2 Hne Ha.
      assert (a ∉ hd :: l1 ++ e :: l2) by (intros ?; apply Hne; by eapply H2). set_solver.
    + eapply frame_weaken; [|exact Hf]. simpl. eauto.
  - destruct (DetachHead_ok h hd x l) as (h' & E & Hd & Hf); [auto|].
    exists h'. unfold bind. rewrite E. split; [done|]. split.
    + eapply holds_insert; [by apply holds_delete|exact Hf|done|].
      intros hd2 l3 a Hl2 Hne Ha. apply lookup_delete_Some in Hl2 as [Hne2 Hl2].
      assert (a ∉ hd :: x :: l) by (intros ?; apply Hne2; by eapply H2). set_solver.
    + eapply frame_weaken; [|exact Hf]. simpl. eauto.
  - destruct (RemoveHeadList_empty h hd) as (h' & E & Hd & Hf); [auto|].
    exists h'. unfold bind. rewrite E. split; [done|]. split.
    + rewrite <- (insert_id L hd []) by done. eapply holds_insert; [done|exact Hf|done|].
      intros hd2 l3 a Hl2 Hne Ha.
      assert (a ∉ [hd]) by (intros ?; apply Hne; by eapply H2). set_solver.
    + eapply frame_weaken; [|exact Hf]. simpl. eauto.
  - destruct (RemoveHeadList_ok h hd x l) as (h' & E & Hd & Hf); [auto|].
    exists h'. unfold bind. rewrite E. split; [done|]. split.
    + eapply holds_insert; [done|exact Hf|done|].
      intros hd2 l3 a Hl2 Hne Ha.
      assert (a ∉ hd :: x :: l) by (intros ?; apply Hne; by eapply H2). set_solver.
    + eapply frame_weaken; [|exact Hf]. simpl. eauto.
  - destruct (RemoveTailList_empty h hd) as (h' & E & Hd & Hf); [auto|].
    exists h'. unfold bind. rewrite E. split; [done|]. split.
    + rewrite <- (insert_id L hd []) by done. eapply holds_insert; [done|exact Hf|done|].
      intros hd2 l3 a Hl2 Hne Ha.
      assert (a ∉ [hd]) by (intros ?; apply Hne; by eapply H2). set_solver.
    + eapply frame_weaken; [|exact Hf]. simpl. eauto.
  - destruct (RemoveTailList_ok h hd x l) as (h' & E & Hd & Hf); [auto|].
    exists h'. unfold bind. rewrite E. split; [done|]. split.
    + eapply holds_insert; [done|exact Hf|done|].
      intros hd2 l3 a Hl2 Hne Ha.
      assert (a ∉ hd :: l ++ [x]) by (intros ?; apply Hne; by eapply H2). set_solver.
    + eapply frame_weaken; [|exact Hf]. simpl. eauto.
  - destruct (AppendTailList_ok h hd l e rest) as (h' & E & Hd & Hf); [auto|auto| |].
    { intros a Ha1 Ha2. apply H3. by eapply (H2 hd l e rest a). }
    exists h'. unfold bind. rewrite E. split; [done|]. split.
    + eapply holds_insert; [by apply holds_delete|exact Hf|done|].
      intros hd2 l3 a Hl2 Hne Ha. apply lookup_delete_Some in Hl2 as [Hne2 Hl2].
      assert (a ∉ hd :: l) by (intros ?; apply Hne; by eapply H2).
      assert (a ∉ e :: rest) by (intros ?; apply Hne2; symmetry; by eapply H2). set_solver.
    + eapply frame_weaken; [|exact Hf]. simpl. intros a [?|?]; [left|right]; eauto.
  - exists h. split; [|split; [done|split; [done|done]]].
    apply H1 in H. destruct H as [Hnd Hl]. unfold bind, DList_IsListEmpty. unfold bind at 1.
    destruct l as [|x l]; simpl in Hl.
    + destruct Hl as [Hf Hb]. erewrite run_rd_flink by eauto. unfold ret.
      rewrite !bool_decide_eq_true_2 by done. done.
    + destruct Hl as (Hf & _). erewrite run_rd_flink by eauto. unfold ret.
      rewrite !bool_decide_eq_false_2; [done|done|]. apply NoDup_cons in Hnd as [? _]. set_solver.
Qed.

Lemma dspec_mapped (P Q : addr -> Prop) L o r L' : (forall a, P a -> Q a) -> dspec P L o r L' -> dspec Q L o r L'.
Proof. intros HPQ H. destruct H; econstructor; eauto. Qed.

Lemma exec_all_ok_gen (P : addr -> Prop) os : forall h, (forall p, P p <-> is_Some (h !! p)) -> forall L rs L',
  dspec_run P L os rs L' -> holds h L ->
  exists h', exec_all os h = Done (rs, h') /\ holds h' L' /\ (forall p, P p <-> is_Some (h' !! p)).
Proof.
  induction os as [|o os IH]; intros h HP L rs L' Hr HL; inversion Hr; subst; simpl.
  - exists h. split; [done|]. split; done.
  - destruct (exec_ok h L o r L'0) as (h1 & E & HL1 & Hf).
    { eapply dspec_mapped; [|eassumption]. intros a. apply HP. }
    { done. }
    destruct Hf as [_ Hm]. 
    edestruct (IH h1) as (h2 & E2 & HL2 & Hm2); [|eassumption|done|].
    { intros p. rewrite HP. apply Hm. }
    exists h2. unfold bind. rewrite E, E2. split; [done|]. split; [done|done].
Qed.

Lemma exec_all_ok os h L rs L' :
  dspec_run (fun p => is_Some (h !! p)) L os rs L' -> holds h L ->
  exists h', exec_all os h = Done (rs, h') /\ holds h' L' /\ (forall p, is_Some (h !! p) <-> is_Some (h' !! p)).
Proof. apply exec_all_ok_gen. done. Qed.

Lemma walk_links_f h l : forall a b, links h a l b -> walk (flink h) (length l + 1) a = l ++ [b].
Proof.
  induction l as [|x l IH]; intros a b; simpl.
  - intros [-> _]. done.
  - intros (-> & _ & H). by rewrite (IH _ _ H).
Qed.
Lemma walk_links_b h l : forall a b, links h a l b -> walk (blink h) (length l + 1) b = reverse l ++ [a].
Proof.
  induction l as [|x l IH] using rev_ind; intros a b; simpl.
  - intros [_ ->]. done.
  - intros H. apply links_app in H as [H [_ Hb]].
    rewrite app_length, reverse_app. simpl. rewrite (Nat.add_comm _ 1). simpl. rewrite Hb.
    f_equal. rewrite <- (IH _ _ H). f_equal; lia.
Qed.
Lemma dlist_walks_ok h hd l : is_dlist h hd l ->
  walk (flink h) (length l + 1) hd = l ++ [hd] /\ walk (blink h) (length l + 1) hd = reverse l ++ [hd].
Proof. intros [_ H]. split; [by apply walk_links_f|by apply walk_links_b]. Qed.

Definition first_or (hd : addr) (l : list addr) : addr := match l with [] => hd | x :: _ => x end.

Lemma ForEach_loop_ok {U} (action : addr -> M (dheap * U) (bool * bool)) (Inv : list addr -> dheap * U -> Prop) hd :
  (forall e rem s, Inv (e :: rem) s -> flink s.1 e = Some (first_or hd rem)) ->
  (forall e rem s s', Inv (e :: rem) s -> action e s = Done ((true, true), s') -> Inv rem s') ->
  forall l fuel s, hd ∉ l -> Inv l s -> length l < fuel ->
  ForEach_loop action fuel hd (first_or hd l) s = foreach_seq action l s.
Proof.
  intros Hnext Hact. induction l as [|e l IH]; intros fuel s Hhd HI Hfuel.
  - destruct fuel as [|fuel]; [simpl in Hfuel; lia|]. simpl. by rewrite bool_decide_eq_true_2.
  - destruct fuel as [|fuel]; [simpl in Hfuel; lia|]. simpl in Hfuel.
    assert (e <> hd) by set_solver. simpl. rewrite bool_decide_eq_false_2 by done.
    destruct s as [h u]. pose proof (Hnext _ _ _ HI) as Hn. simpl in Hn.
    unfold bind. simpl. erewrite run_rd_flink by exact Hn.
    destruct (action e (h, u)) as [[[ok cont] s']| |] eqn:E; [|done..]. simpl.
    destruct ok; simpl; [|done]. destruct cont; simpl; [|done].
    apply IH; [set_solver|by eapply Hact|lia].
Qed.

Lemma links_first h l a b : links h a l b -> flink h a = Some (first_or b l).
Proof. destruct l; simpl; tauto. Qed.

Lemma ForEach_ok {U} (action : addr -> M (dheap * U) (bool * bool)) (Inv : list addr -> dheap * U -> Prop) hd l h u fuel :
  (forall e rem s, Inv (e :: rem) s -> flink s.1 e = Some (first_or hd rem)) ->
  (forall e rem s s', Inv (e :: rem) s -> action e s = Done ((true, true), s') -> Inv rem s') ->
  is_dlist h hd l -> Inv l (h, u) -> length l < fuel ->
  DList_ForEach action fuel hd (h, u) = foreach_seq action l (h, u).
Proof.
  intros Hnext Hact [Hnd Hl] HI Hfuel. unfold DList_ForEach, bind. simpl.
  erewrite run_rd_flink by (by eapply links_first).
  eapply ForEach_loop_ok; eauto. by apply NoDup_cons in Hnd as [? _].
Qed.

(** Actions that never change the links of entries still to be visited. *)
Lemma ForEach_stable {U} (action : addr -> M (dheap * U) (bool * bool)) hd l h u fuel :
  is_dlist h hd l -> length l < fuel ->
  (forall l1 e l2 s s', l = l1 ++ e :: l2 -> action e s = Done ((true, true), s') ->
     forall x, x ∈ l2 -> flink s'.1 x = flink s.1 x) ->
  DList_ForEach action fuel hd (h, u) = foreach_seq action l (h, u).
Proof.
  intros Hd Hfuel Hst.
  set (Inv := fun rem (s : dheap * U) => exists l1, l = l1 ++ rem /\
     forall e r1 r2, rem = r1 ++ e :: r2 -> flink s.1 e = Some (first_or hd r2)).
  apply (ForEach_ok action Inv); [..|done| |done].
  - intros e rem s (l1 & _ & H). by apply (H e [] rem).
  - intros e rem s s' (l1 & -> & H) Ha. exists (l1 ++ [e]). split; [by rewrite <- app_assoc|].
    intros x r1 r2 ->. erewrite Hst; [|reflexivity|done|set_solver].
    by apply (H x (e :: r1) r2).
  - exists []. split; [done|]. intros e r1 r2 ->. destruct Hd as [_ Hl].
    apply links_app in Hl as [_ Hl]. simpl. by eapply links_first.
Qed.

Lemma foreach_unlink (sel : addr -> bool) hd : forall l kept h visited,
  is_dlist h hd (kept ++ l) ->
  exists h', foreach_seq (unlink_and_free sel) l (h, visited) = Done (true, (h', visited ++ l)) /\
     is_dlist h' hd (kept ++ filter (fun e => sel e = false) l) /\
     (forall e, e ∈ l -> sel e = true -> h' !! e = None) /\
     (forall a, a ∉ hd :: kept ++ l -> h' !! a = h !! a).
Proof.
  induction l as [|e l IH]; intros kept h visited Hd; simpl.
  - exists h. rewrite !app_nil_r. split; [done|]. split; [by rewrite app_nil_r in Hd|]. split; [set_solver|done].
  - unfold bind. simpl. destruct (sel e) eqn:Es.
    + destruct (RemoveEntryList_ok h hd kept e l Hd) as (h1 & E & Hd1 & Hf). rewrite E. simpl.
      assert (He : e ∉ hd :: kept ++ l).
      { destruct Hd as [Hnd _]. apply NoDup_cons in Hnd as [? Hnd].
        apply NoDup_app in Hnd as (_ & Hx & Hnd). apply NoDup_cons in Hnd as [? _]. set_solver. }
      assert (Hd2 : is_dlist (delete e h1) hd (kept ++ l)).
      { destruct Hd1 as [Hnd Hl]. split; [done|]. eapply links_frame; [..|exact Hl].
        - intros p Hp. unfold flink. rewrite lookup_delete_ne; [done|]. intros ->. done.
        - intros p Hp. unfold blink. rewrite lookup_delete_ne; [done|]. intros ->. destruct Hp as [->|Hp]; set_solver. }
      destruct (IH kept _ (visited ++ [e]) Hd2) as (h' & E' & Hd' & Hdel & Hfr).
      exists h'. rewrite E'. rewrite <- app_assoc. split; [done|]. split; [|split].
      * rewrite filter_cons_False by congruence. done.
      * intros x Hx Hsx. apply elem_of_cons in Hx as [->|Hx]; [|by apply Hdel].
        rewrite Hfr by done. by rewrite lookup_delete.
      * intros a Ha. rewrite Hfr by set_solver. rewrite lookup_delete_ne by set_solver.
        destruct Hf as [Hf _]. apply Hf. set_solver.
    + replace (kept ++ e :: l) with ((kept ++ [e]) ++ l) in Hd by (by rewrite <- app_assoc).
      destruct (IH (kept ++ [e]) h (visited ++ [e]) Hd) as (h' & E' & Hd' & Hdel & Hfr).
      exists h'. simpl. rewrite E'. rewrite <- app_assoc. split; [done|]. split; [|split].
      * rewrite filter_cons_True by done. by rewrite <- app_assoc in Hd'.
      * intros x Hx Hsx. apply elem_of_cons in Hx as [->|Hx]; [congruence|by apply Hdel].
      * intros a Ha. rewrite <- app_assoc in Hfr. by apply Hfr.
Qed.

Lemma ForEach_unlink_ok (sel : addr -> bool) hd l h fuel :
  is_dlist h hd l -> length l < fuel ->
  exists h', DList_ForEach (unlink_and_free sel) fuel hd (h, []) = Done (true, (h', l)) /\
     is_dlist h' hd (filter (fun e => sel e = false) l) /\
     (forall e, e ∈ l -> sel e = true -> h' !! e = None).
Proof.
  intros Hd Hfuel.
  set (Inv := fun rem (s : dheap * list addr) => exists kept, is_dlist s.1 hd (kept ++ rem)).
  destruct (foreach_unlink sel hd l [] h [] Hd) as (h' & E & Hd' & Hdel & _).
  exists h'. split; [|split; done].
  rewrite (ForEach_ok (unlink_and_free sel) Inv hd l h [] fuel).
  - by rewrite E.
  - intros e rem s (kept & [_ Hl]). apply links_app in Hl as [_ Hl]. by eapply links_first.
  - intros e rem [h1 v] s' (kept & Hk) Ha. simpl in *. destruct (sel e).
    + destruct (RemoveEntryList_ok h1 hd kept e rem Hk) as (h2 & E2 & [Hnd2 Hl2] & Hf). rewrite E2 in Ha.
      injection Ha as <-. exists kept. simpl. split; [done|].
      assert (He : e ∉ hd :: kept ++ rem).
      { destruct Hk as [Hnd _]. apply NoDup_cons in Hnd as [? Hnd].
        apply NoDup_app in Hnd as (_ & Hx & Hnd). apply NoDup_cons in Hnd as [? _]. set_solver. }
      eapply links_frame; [..|exact Hl2].
      * intros p Hp. unfold flink. rewrite lookup_delete_ne; [done|]. intros ->. done.
      * intros p Hp. unfold blink. rewrite lookup_delete_ne; [done|]. intros ->. destruct Hp as [->|Hp]; set_solver.
    + injection Ha as <-. exists (kept ++ [e]). simpl. by rewrite <- app_assoc.
  - done.
  - exists []. done.
  - done.
Qed.
