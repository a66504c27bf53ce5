(** Proofs for the object lifetime tracker. *)
From Verif Require Import Common OltModel OltSpec.
Local Open Scope Z_scope.

(** A key's struct, its key, the objects registered under it with their structs *)
Notation entry := (positive * (Z * list (positive * object_struct)))%type.
Definition addrs (L : list entry) : list positive := L ≫= fun e => e.2.2.*1.
Record mem_ok (b : bool) (km : gmap positive key_struct) (om : gmap positive object_struct) (L : list entry) : Prop := MemOk {
  mk_key : forall p k os, (p, (k, os)) ∈ L -> km !! p = Some (Key k os.*1);
  mk_obj : forall p k os a o, (p, (k, os)) ∈ L -> (a, o) ∈ os -> om !! a = Some o;
  mk_nd : NoDup L.*1; mk_ndk : NoDup (fst <$> L.*2); mk_nda : NoDup (addrs L);
  mk_kall : b = true -> forall p, is_Some (km !! p) -> p ∈ L.*1;
  mk_oall : b = true -> forall a, is_Some (om !! a) -> a ∈ addrs L }.

Lemma elem_addrs L a : a ∈ addrs L <-> exists p k os o, (p, (k, os)) ∈ L /\ (a, o) ∈ os.
Proof.
  unfold addrs. rewrite elem_of_list_bind. split.
  - intros ([p [k os]] & Ha & He). simpl in Ha. apply elem_of_list_fmap in Ha as ([a' o] & -> & Ha). eauto 8.
  - intros (p & k & os & o & He & Ha). exists (p, (k, os)). split; [|done]. apply elem_of_list_fmap. by exists (a, o).
Qed.
Lemma elem_keys (L : list entry) p : p ∈ L.*1 <-> exists k os, (p, (k, os)) ∈ L.
Proof. rewrite elem_of_list_fmap. split; [intros ([? [k os]] & -> & ?); eauto|intros (k & os & ?); by exists (p, (k, os))]. Qed.
Lemma elem_names (L : list entry) k : k ∈ (fst <$> L.*2) <-> exists p os, (p, (k, os)) ∈ L.
Proof.
  rewrite elem_of_list_fmap. split.
  - intros ([? os] & -> & He). apply elem_of_list_fmap in He as ([p [k' os']] & [= -> ->] & ?). eauto.
  - intros (p & os & He). exists (k, os). split; [done|]. apply elem_of_list_fmap. by exists (p, (k, os)).
Qed.
Lemma addrs_app L1 L2 : addrs (L1 ++ L2) = addrs L1 ++ addrs L2.
Proof. apply bind_app. Qed.
Lemma addrs_cons p k os L : addrs ((p, (k, os)) :: L) = os.*1 ++ addrs L.
Proof. done. Qed.

Lemma mem_add_key b km om L p k : mem_ok b km om L -> p ∉ dom km -> k ∉ (fst <$> L.*2) -> mem_ok b (<[p := Key k []]> km) om ((p, (k, [])) :: L).
Proof.
  intros [H1 H2 H3 H4 H5 H6 H7] Hp Hk.
  assert (p ∉ L.*1) as Hp'. { rewrite elem_keys. intros (k' & os & Hin). apply Hp, elem_of_dom. rewrite (H1 _ _ _ Hin). eauto. }
  split.
  - intros q k' os Hin. apply elem_of_cons in Hin as [[= -> -> ->]|Hin]; [by rewrite lookup_insert|].
    rewrite lookup_insert_ne; [eauto|]. intros ->. apply Hp'. rewrite elem_keys. eauto.
  - intros q k' os a o Hin Ha. apply elem_of_cons in Hin as [[= -> -> ->]|Hin]; [by apply elem_of_nil in Ha|eauto].
  - simpl. by constructor.
  - simpl. by constructor.
  - rewrite addrs_cons. done.
  - intros Hb q. destruct (decide (q = p)) as [->|]; [intros _; left|]. rewrite lookup_insert_ne; [|done]. intros. right. eauto.
  - intros Hb a Ha. rewrite addrs_cons. eauto.
Qed.
Lemma mem_rm_key b km om L1 L2 p k : mem_ok b km om (L1 ++ (p, (k, [])) :: L2) -> mem_ok b (delete p km) om (L1 ++ L2).
Proof.
  intros [H1 H2 H3 H4 H5 H6 H7]. rewrite fmap_app, fmap_cons in H3. rewrite !fmap_app, !fmap_cons in H4. simpl in H3, H4.
  apply NoDup_app in H3 as (N1 & N2 & N3). apply NoDup_cons in N3 as [N3 N4].
  apply NoDup_app in H4 as (M1 & M2 & M3). apply NoDup_cons in M3 as [M3 M4].
  rewrite addrs_app, addrs_cons in H5. simpl in H5.
  assert (forall q k' os, (q, (k', os)) ∈ L1 ++ L2 -> (q, (k', os)) ∈ L1 ++ (p, (k, [])) :: L2 /\ q <> p) as Hsub.
  { intros q k' os Hin. rewrite elem_of_app in *. rewrite elem_of_cons. split; [tauto|]. intros ->. destruct Hin as [Hin|Hin].
    - apply (N2 p); [rewrite elem_keys; eauto|left].
    - apply N3. rewrite elem_keys. eauto. }
  split.
  - intros q k' os Hin. apply Hsub in Hin as [Hin Hne]. rewrite lookup_delete_ne; [eauto|done].
  - intros q k' os a o Hin. apply Hsub in Hin as [Hin Hne]. eauto.
  - rewrite fmap_app. apply NoDup_app. split; [done|]. split; [|done]. intros q Hq Hq'. apply (N2 q Hq). by right.
  - rewrite !fmap_app. apply NoDup_app. split; [done|]. split; [|done]. intros q Hq Hq'. apply (M2 q Hq). by right.
  - rewrite addrs_app. done.
  - intros Hb q [x Hq]. destruct (decide (q = p)) as [->|Hne]; [by rewrite lookup_delete in Hq|]. rewrite lookup_delete_ne in Hq; [|done].
    assert (q ∈ (L1 ++ (p, (k, [])) :: L2).*1) as Hin by eauto. rewrite fmap_app, elem_of_app in *. rewrite fmap_cons, elem_of_cons in Hin. simpl in Hin. tauto.
  - intros Hb a Ha. specialize (H7 Hb a Ha). rewrite addrs_app, addrs_cons in H7. by rewrite addrs_app.
Qed.
Lemma mid_other L1 L2 (e e' : entry) x : x ∈ L1 ++ e' :: L2 -> x = e' \/ (x ∈ L1 ++ e :: L2 /\ (x ∈ L1 \/ x ∈ L2)).
Proof. rewrite !elem_of_app, !elem_of_cons. tauto. Qed.
Lemma mem_add_object b km om L1 L2 p k os a o : mem_ok b km om (L1 ++ (p, (k, os)) :: L2) -> a ∉ dom om ->
  mem_ok b (<[p := Key k (a :: os.*1)]> km) (<[a := o]> om) (L1 ++ (p, (k, (a, o) :: os)) :: L2).
Proof.
  intros [H1 H2 H3 H4 H5 H6 H7] Ha.
  assert (a ∉ addrs (L1 ++ (p, (k, os)) :: L2)) as Hfr. { rewrite elem_addrs. intros (q & k' & os' & o' & Hin & Hin'). apply Ha, elem_of_dom. rewrite (H2 _ _ _ _ _ Hin Hin'). eauto. }
  assert (forall q k' os', (q, (k', os')) ∈ L1 \/ (q, (k', os')) ∈ L2 -> q <> p) as Hne.
  { intros q k' os' Hin ->. rewrite fmap_app, fmap_cons in H3. simpl in H3. apply NoDup_app in H3 as (N1 & N2 & N3). apply NoDup_cons in N3 as [N3 N4]. destruct Hin as [Hin|Hin].
    - apply (N2 p); [rewrite elem_keys; eauto|left].
    - apply N3. rewrite elem_keys. eauto. }
  split.
  - intros q k' os' Hin. apply (mid_other _ _ (p, (k, os))) in Hin as [[= -> -> ->]|[Hin Ho]]; [by rewrite lookup_insert|]. rewrite lookup_insert_ne; [eauto|]. intros ->. by apply Hne in Ho.
  - intros q k' os' a' o' Hin Ha'. apply (mid_other _ _ (p, (k, os))) in Hin as [[= -> -> ->]|[Hin Ho]].
    + apply elem_of_cons in Ha' as [[= -> ->]|Ha']; [by rewrite lookup_insert|]. rewrite lookup_insert_ne; [eapply H2; [|done]; rewrite elem_of_app, elem_of_cons; eauto|].
      intros ->. apply Hfr. rewrite elem_addrs. exists p, k, os, o'. rewrite elem_of_app, elem_of_cons. auto.
    + rewrite lookup_insert_ne; [eauto|]. intros ->. apply Hfr. rewrite elem_addrs. eauto 8.
  - rewrite fmap_app, fmap_cons in *. done.
  - rewrite !fmap_app, !fmap_cons in *. done.
  - rewrite addrs_app, addrs_cons in *. simpl. rewrite <- Permutation_middle. by constructor.
  - intros Hb q Hq. rewrite fmap_app, fmap_cons. specialize (H6 Hb). rewrite fmap_app, fmap_cons in H6. simpl in *.
    destruct (decide (q = p)) as [->|]; [rewrite elem_of_app, elem_of_cons; auto|]. rewrite lookup_insert_ne in Hq; [|done]. eauto.
  - intros Hb q Hq. specialize (H7 Hb). rewrite addrs_app, addrs_cons in *. simpl. rewrite elem_of_app, elem_of_cons.
    destruct (decide (q = a)) as [->|]; [auto|]. rewrite lookup_insert_ne in Hq; [|done]. specialize (H7 q Hq). rewrite elem_of_app in H7. tauto.
Qed.
Lemma mem_rm_object b km om L1 L2 p k o1 a o o2 : mem_ok b km om (L1 ++ (p, (k, o1 ++ (a, o) :: o2)) :: L2) ->
  mem_ok b (<[p := Key k ((o1 ++ o2).*1)]> km) (delete a om) (L1 ++ (p, (k, o1 ++ o2)) :: L2).
Proof.
  intros [H1 H2 H3 H4 H5 H6 H7].
  assert (forall q k' os', (q, (k', os')) ∈ L1 \/ (q, (k', os')) ∈ L2 -> q <> p) as Hne.
  { intros q k' os' Hin ->. rewrite fmap_app, fmap_cons in H3. simpl in H3. apply NoDup_app in H3 as (N1 & N2 & N3). apply NoDup_cons in N3 as [N3 N4]. destruct Hin as [Hin|Hin].
    - apply (N2 p); [rewrite elem_keys; eauto|left].
    - apply N3. rewrite elem_keys. eauto. }
  rewrite addrs_app, addrs_cons, fmap_app, fmap_cons in H5. simpl in H5. rewrite <- app_assoc in H5. simpl in H5. rewrite app_assoc, <- Permutation_middle in H5.
  apply NoDup_cons in H5 as [Hfr H5].
  assert (addrs (L1 ++ (p, (k, o1 ++ o2)) :: L2) = (addrs L1 ++ o1.*1) ++ o2.*1 ++ addrs L2) as HE.
  { rewrite addrs_app, addrs_cons, fmap_app, <- !app_assoc. done. }
  split.
  - intros q k' os' Hin. apply (mid_other _ _ (p, (k, o1 ++ (a, o) :: o2))) in Hin as [[= -> -> ->]|[Hin Ho]]; [by rewrite lookup_insert|]. rewrite lookup_insert_ne; [eauto|]. intros ->. by apply Hne in Ho.
  - intros q k' os' a' o' Hin Ha'.
    assert (a' <> a). { intros ->. apply Hfr. rewrite <- HE. rewrite elem_addrs. eauto 8. }
    rewrite lookup_delete_ne; [|done]. apply (mid_other _ _ (p, (k, o1 ++ (a, o) :: o2))) in Hin as [[= -> -> ->]|[Hin Ho]]; [|eauto].
    eapply H2; [rewrite elem_of_app, elem_of_cons; eauto|]. rewrite elem_of_app, elem_of_cons in *. tauto.
  - rewrite fmap_app, fmap_cons in *. done.
  - rewrite !fmap_app, !fmap_cons in *. done.
  - rewrite HE. done.
  - intros Hb q Hq. rewrite fmap_app, fmap_cons. specialize (H6 Hb). rewrite fmap_app, fmap_cons in H6. simpl in *.
    destruct (decide (q = p)) as [->|]; [rewrite elem_of_app, elem_of_cons; auto|]. rewrite lookup_insert_ne in Hq; [|done]. eauto.
  - intros Hb q [x Hq]. specialize (H7 Hb). rewrite HE. destruct (decide (q = a)) as [->|Hn]; [by rewrite lookup_delete in Hq|]. rewrite lookup_delete_ne in Hq; [|done].
    specialize (H7 q). rewrite addrs_app, addrs_cons, fmap_app, fmap_cons in H7. simpl in H7. rewrite !elem_of_app, elem_of_cons in *. rewrite Hq in H7. specialize (H7 ltac:(eauto)). tauto.
Qed.

(** The searches *)
Lemma find_key_ok F k s (L : list entry) : tells_equal (key_match F) -> (forall p k' os, (p, (k', os)) ∈ L -> key_mem s !! p = Some (Key k' os.*1)) ->
  exists r, find_key F k L.*1 s = Done (r, s) /\
    match r with
    | Failed => exists p k' os, (p, (k', os)) ∈ L /\ key_match F k' k = MATCH_ERROR
    | NotFound => k ∉ (fst <$> L.*2) /\ forall p k' os, (p, (k', os)) ∈ L -> key_match F k' k <> MATCH_ERROR
    | Found p => exists os L1 L2, L = L1 ++ (p, (k, os)) :: L2
    end.
Proof.
  intros HF. induction L as [|[p [k' os]] L IH]; intros HL.
  - exists NotFound. split; [done|]. split; [apply not_elem_of_nil|]. intros ??? H. by apply elem_of_nil in H.
  - simpl. unfold get_key, bind, get, ret. rewrite (HL p k' os); [|left]. simpl. destruct (HF k' k) as [He Hn]. destruct (key_match F k' k) eqn:E.
    + exists (Found p). split; [done|]. rewrite <- (He eq_refl). by exists os, [], L.
    + destruct IH as (r & Hr & Hc); [intros; apply HL; by right|]. exists r. split; [done|]. destruct r as [| |q].
      * destruct Hc as (q & x & y & ? & ?). exists q, x, y. split; [by right|done].
      * destruct Hc as [Hk Hc]. split; [rewrite elem_of_cons; intros [->|?]; [by apply Hn|done]|].
        intros q x y Hin. apply elem_of_cons in Hin as [[= -> -> ->]|Hin]; [by rewrite E|eauto].
      * destruct Hc as (y & L1 & L2 & ->). by exists y, ((p, (k', os)) :: L1), L2.
    + exists Failed. split; [done|]. exists p, k', os. split; [left|done].
Qed.
Lemma find_object_ok F o s (os : list (positive * object_struct)) : tells_equal (object_match F) -> (forall a e, (a, e) ∈ os -> object_mem s !! a = Some e) ->
  exists r, find_object F o os.*1 s = Done (r, s) /\
    match r with
    | Failed => exists e, e ∈ os.*2 /\ object_match F (object e) o = MATCH_ERROR
    | NotFound => forall e, e ∈ os.*2 -> object e <> o /\ object_match F (object e) o <> MATCH_ERROR
    | Found a => exists e o1 o2, os = o1 ++ (a, e) :: o2 /\ object e = o
    end.
Proof.
  intros HF. induction os as [|[a e] os IH]; intros HL.
  - exists NotFound. split; [done|]. intros ? H. by apply elem_of_nil in H.
  - simpl. unfold get_object, bind, get, ret. rewrite (HL a e); [|left]. simpl. destruct (HF (object e) o) as [He Hn]. destruct (object_match F (object e) o) eqn:E.
    + exists (Found a). split; [done|]. by exists e, [], os; auto.
    + destruct IH as (r & Hr & Hc); [intros; apply HL; by right|]. exists r. split; [done|]. destruct r as [| |q].
      * destruct Hc as (x & ? & ?). exists x. split; [by right|done].
      * intros x Hin. apply elem_of_cons in Hin as [->|Hin]; [rewrite E; auto|eauto].
      * destruct Hc as (x & o1 & o2 & -> & ?). by exists x, ((a, e) :: o1), o2.
    + exists Failed. split; [done|]. exists e. split; [left|done].
Qed.

(** The tracker's map, and the invariant *)
Definition maps (m : Z -> list object_struct) (L : list entry) : Prop :=
  (forall p k os, (p, (k, os)) ∈ L -> m k = os.*2 /\ os <> []) /\ (forall k, k ∉ (fst <$> L.*2) -> m k = []).
Definition inv (b : bool) (s : st) (m : tracker) : Prop :=
  match m with
  | None => there s = false /\ (b = true -> mem_ok b (key_mem s) (object_mem s) [])
  | Some f => there s = true /\ lock s = Free /\ exists L, keys s = L.*1 /\ mem_ok b (key_mem s) (object_mem s) L /\ maps f L
  end.
Lemma maps_update f L1 L2 p k os os' : NoDup (fst <$> (L1 ++ (p, (k, os)) :: L2).*2) -> maps f (L1 ++ (p, (k, os)) :: L2) -> os' <> [] ->
  maps (update f k os'.*2) (L1 ++ (p, (k, os')) :: L2).
Proof.
  intros Hnd [H1 H2] Hne. unfold update. split.
  - intros q x y Hin. rewrite elem_of_app, elem_of_cons in Hin. case_decide as Hx.
    + subst x. destruct Hin as [Hin|[[= -> ->]|Hin]]; [|done|].
      * rewrite !fmap_app, !fmap_cons in Hnd. apply NoDup_app in Hnd as (_ & N & _). destruct (N k); [apply elem_names; eauto|left].
      * rewrite !fmap_app, !fmap_cons in Hnd. apply NoDup_app in Hnd as (_ & _ & N). apply NoDup_cons in N as [N _]. destruct N. apply elem_names. eauto.
    + destruct Hin as [Hin|[[= -> -> ->]|Hin]]; [|done|]; apply (H1 q); rewrite elem_of_app, elem_of_cons; auto.
  - intros x Hx. rewrite !fmap_app, !fmap_cons, elem_of_app, elem_of_cons in Hx. simpl in Hx. case_decide as Hk; [subst; tauto|].
    apply H2. rewrite !fmap_app, !fmap_cons, elem_of_app, elem_of_cons. simpl. tauto.
Qed.
Lemma maps_remove f L1 L2 p k os : NoDup (fst <$> (L1 ++ (p, (k, os)) :: L2).*2) -> maps f (L1 ++ (p, (k, os)) :: L2) -> maps (update f k []) (L1 ++ L2).
Proof.
  intros Hnd [H1 H2]. unfold update. split.
  - intros q x y Hin. rewrite elem_of_app in Hin. case_decide as Hx.
    + subst x. destruct Hin as [Hin|Hin].
      * rewrite !fmap_app, !fmap_cons in Hnd. apply NoDup_app in Hnd as (_ & N & _). destruct (N k); [apply elem_names; eauto|left].
      * rewrite !fmap_app, !fmap_cons in Hnd. apply NoDup_app in Hnd as (_ & _ & N). apply NoDup_cons in N as [N _]. destruct N. apply elem_names. eauto.
    + apply (H1 q). rewrite elem_of_app, elem_of_cons. tauto.
  - intros x Hx. rewrite !fmap_app, elem_of_app in Hx. case_decide as Hk; [done|].
    apply H2. rewrite !fmap_app, !fmap_cons, elem_of_app, elem_of_cons. simpl. tauto.
Qed.
Lemma maps_add f L p k os : maps f L -> k ∉ (fst <$> L.*2) -> os <> [] -> maps (update f k os.*2) ((p, (k, os)) :: L).
Proof.
  intros [H1 H2] Hk Hne. unfold update. split.
  - intros q x y Hin. apply elem_of_cons in Hin as [[= -> -> ->]|Hin]; [by rewrite decide_True|]. rewrite decide_False; [eauto|]. intros ->. apply Hk, elem_names. eauto.
  - intros x Hx. rewrite !fmap_cons, elem_of_cons in Hx. simpl in Hx. rewrite decide_False; [apply H2|]; tauto.
Qed.
Lemma maps_key f L k : maps f L -> k ∉ (fst <$> L.*2) <-> f k = [].
Proof.
  intros [H1 H2]. split; [apply H2|]. intros Hf Hk. apply elem_names in Hk as (p & os & Hin). destruct (H1 _ _ _ Hin) as [He Hn]. rewrite Hf in He. by destruct os.
Qed.
Lemma maps_fails F f L k : maps f L -> key_fails F f k <-> exists p k' os, (p, (k', os)) ∈ L /\ key_match F k' k = MATCH_ERROR.
Proof.
  intros Hm. split.
  - intros (x & Hx & He). assert (x ∈ (fst <$> L.*2)) as Hin. { destruct (decide (x ∈ (fst <$> L.*2))) as [|Hn]; [done|]. by apply (maps_key f) in Hn. }
    apply elem_names in Hin as (p & os & Hin). eauto.
  - intros (p & x & os & Hin & He). exists x. split; [|done]. intros Hf. apply (maps_key f L) in Hf; [|done]. apply Hf, elem_names. eauto.
Qed.
Lemma remove_mid (L1 L2 : list entry) p e : NoDup (L1 ++ (p, e) :: L2).*1 -> remove p (L1 ++ (p, e) :: L2).*1 = (L1 ++ L2).*1.
Proof.
  rewrite !fmap_app, fmap_cons. simpl. intros (N1 & N2 & N3)%NoDup_app. apply NoDup_cons in N3 as [N3 N4].
  assert (forall l : list positive, p ∉ l -> filter (fun q => q <> p) l = l) as Hf.
  { induction l as [|x l IH]; intros Hl; [done|]. apply not_elem_of_cons in Hl as [Hl1 Hl2]. rewrite filter_cons, decide_True by done. by rewrite IH. }
  unfold remove. rewrite filter_app, filter_cons, decide_False by tauto. rewrite !Hf; [done|done|]. intros Hp. apply (N2 p Hp). left.
Qed.
Lemma remove_object (o1 o2 : list (positive * object_struct)) a e : NoDup (o1 ++ (a, e) :: o2).*1 -> remove a (o1 ++ (a, e) :: o2).*1 = (o1 ++ o2).*1.
Proof.
  rewrite !fmap_app, fmap_cons. simpl. intros (N1 & N2 & N3)%NoDup_app. apply NoDup_cons in N3 as [N3 N4].
  assert (forall l : list positive, a ∉ l -> filter (fun q => q <> a) l = l) as Hf.
  { induction l as [|x l IH]; intros Hl; [done|]. apply not_elem_of_cons in Hl as [Hl1 Hl2]. rewrite filter_cons, decide_True by done. by rewrite IH. }
  unfold remove. rewrite filter_app, filter_cons, decide_False by tauto. rewrite !Hf; [done|done|]. intros Hp. apply (N2 a Hp). left.
Qed.
Lemma nodup_objects b km om L1 L2 p k os : mem_ok b km om (L1 ++ (p, (k, os)) :: L2) -> NoDup os.*1.
Proof. intros H. pose proof (mk_nda _ _ _ _ H) as N. rewrite addrs_app, addrs_cons in N. by apply NoDup_app in N as (_ & _ & (N & _)%NoDup_app). Qed.

Ltac ex := cbv beta iota zeta delta [bind get ret set_key get_key get_object free_object free_key set_key_mem set_object_mem emit set_keys set_lock acquire release new_key allocates
    there keys lock key_mem object_mem oracle fails events key objects negb orb].
Definition with_mem (s : st) (ks : list positive) (km : gmap positive key_struct) (om : gmap positive object_struct) (l : list bool) (n : nat) (es : list event) : st :=
  St (there s) ks (lock s) km om l n (events s ++ es).
Lemma register_in_ok F b kp new k os L1 L2 s o df dc : tells_equal (object_match F) -> mem_ok b (key_mem s) (object_mem s) (L1 ++ (kp, (k, os)) :: L2) ->
  exists r km om l n, register_in F kp new o df dc s = Done (r, with_mem s (keys s) km om l n []) /\
    ((r = REGISTER_OBJECT_ERROR /\ km = key_mem s /\ om = object_mem s /\
        ((exists e, e ∈ os.*2 /\ object_match F (object e) o = MATCH_ERROR) \/ (fails s < n)%nat /\ forall e, e ∈ os.*2 -> object e <> o)) \/
     (r = REGISTER_OBJECT_EXISTS /\ km = key_mem s /\ om = object_mem s /\ l = oracle s /\ n = fails s /\ exists e, e ∈ os.*2 /\ object e = o) \/
     (r = (if new then REGISTER_OBJECT_NEW_KEY else REGISTER_OBJECT_NEW_OBJECT) /\ (forall e, e ∈ os.*2 -> object e <> o /\ object_match F (object e) o <> MATCH_ERROR) /\
        exists a, mem_ok b km om (L1 ++ (kp, (k, (a, Obj o df dc) :: os)) :: L2))) /\ (fails s <= n)%nat.
Proof.
  intros HF Hm. assert ((kp, (k, os)) ∈ L1 ++ (kp, (k, os)) :: L2) as Hin by (rewrite elem_of_app, elem_of_cons; auto).
  pose proof (mk_key _ _ _ _ Hm _ _ _ Hin) as Hk.
  destruct (find_object_ok F o s os HF) as (r & Hr & Hc); [intros a e Ha; by eapply mk_obj|].
  unfold register_in, get_key. unfold bind at 1 2. unfold get at 1. rewrite Hk. simpl. unfold bind at 1. rewrite Hr. unfold with_mem. rewrite app_nil_r. destruct s as [t ks lk km om l n es]; simpl in *.
  destruct r as [| |a].
  - exists REGISTER_OBJECT_ERROR, km, om, l, n. split; [done|]. split; [|lia]. left. eauto 8.
  - unfold new_object, bind, allocates. simpl. destruct l as [|[] l]; simpl; unfold set_key, get_key, bind, get; simpl; rewrite ?Hk; simpl.
    + eexists _, _, _, _, _. split; [done|]. split; [|lia]. right. right. split; [done|]. split; [done|]. eexists. apply mem_add_object; [done|]. apply is_fresh.
    + eexists _, _, _, _, _. split; [done|]. split; [|lia]. right. right. split; [done|]. split; [done|]. eexists. apply mem_add_object; [done|]. apply is_fresh.
    + eexists _, _, _, _, _. split; [done|]. split; [|lia]. left. split; [done|]. split; [done|]. split; [done|]. right. split; [lia|]. intros e He. by apply Hc.
  - destruct Hc as (e & o1 & o2 & -> & He). exists REGISTER_OBJECT_EXISTS, km, om, l, n. split; [done|]. split; [|lia]. right. left. do 5 (split; [done|]). exists e. split; [|done].
    rewrite fmap_app, fmap_cons, elem_of_app, elem_of_cons. auto.
Qed.

Lemma destroy_objects_ok b kp k L1 L2 os : forall s, mem_ok b (key_mem s) (object_mem s) (L1 ++ (kp, (k, os)) :: L2) ->
  exists km om, destroy_objects kp os.*1 s = Done (tt, with_mem s (keys s) km om (oracle s) (fails s) ((fun e => Destroyed (destroy_object e) (object e) (destroy_context e)) <$> os.*2)) /\
    mem_ok b km om (L1 ++ (kp, (k, [])) :: L2).
Proof.
  induction os as [|[a o] os IH]; intros s Hm.
  - exists (key_mem s), (object_mem s). split; [|done]. simpl. unfold with_mem. rewrite app_nil_r. by destruct s.
  - assert ((kp, (k, (a, o) :: os)) ∈ L1 ++ (kp, (k, (a, o) :: os)) :: L2) as Hin by (rewrite elem_of_app, elem_of_cons; auto).
    pose proof (mk_key _ _ _ _ Hm _ _ _ Hin) as Hk. assert (object_mem s !! a = Some o) as Ho by (eapply mk_obj; [done..|]; left).
    pose proof (mem_rm_object _ _ _ _ _ _ _ [] _ _ _ Hm) as Hm'. destruct s as [t ks lk km om l n es]; simpl in *.
    ex. rewrite Hk. ex. rewrite Hk. ex. rewrite Ho. ex. rewrite Ho. ex.
    destruct (IH (St t ks lk (<[kp := Key k os.*1]> km) (delete a om) l n (es ++ [Destroyed (destroy_object o) (object o) (destroy_context o)])) Hm') as (km' & om' & Hr & Hm2).
    exists km', om'. split; [|done]. etransitivity; [exact Hr|]. unfold with_mem. simpl. by rewrite <- app_assoc.
Qed.

Lemma maps_objects f L1 L2 p k os : maps f (L1 ++ (p, (k, os)) :: L2) -> f k = os.*2 /\ os <> [].
Proof. intros [H _]. apply (H p). rewrite elem_of_app, elem_of_cons. auto. Qed.

(** Each call *)
Definition does_well (F : functions) (b : bool) (c : call) (s : st) (m : tracker) : Prop :=
  exists r s' m' es, run F c s = Done (r, s') /\ does F (bool_decide (fails s < fails s')%nat) c m r m' es /\ events s' = events s ++ es /\ lock s' = Free /\ inv b s' m'.


Lemma bind_done {A B} (m : M st A) (f : A -> M st B) s a s' : m s = Done (a, s') -> bind m f s = f a s'.
Proof. unfold bind. by intros ->. Qed.
(** Inside a call, the lock held in mode x *)
Definition inside (b : bool) (x : lock_state) (s : st) (f : Z -> list object_struct) : Prop :=
  there s = true /\ lock s = x /\ exists L, keys s = L.*1 /\ mem_ok b (key_mem s) (object_mem s) L /\ maps f L.
Lemma acquire_ok b x s f : inv b s (Some f) -> exists s', acquire x s = Done (tt, s') /\ inside b x s' f /\ events s' = events s /\ fails s' = fails s.
Proof.
  intros (Ht & Hl & L & H). destruct s as [th ks lk km om l n es]; simpl in *. subst. eexists. unfold acquire, bind, get. simpl. split; [reflexivity|]. split; [|done]. split; [done|]. split; [done|]. eauto.
Qed.
Lemma release_ok b x s f : inside b x s f -> x <> Free -> exists s', release x s = Done (tt, s') /\ inv b s' (Some f) /\ lock s' = Free /\ events s' = events s /\ fails s' = fails s.
Proof.
  intros (Ht & Hl & L & H) Hx. destruct s as [th ks lk km om l n es]; simpl in *. subst. unfold release, bind, get. simpl. destruct x; [done|..]; (eexists; split; [reflexivity|]; split; [|done]; split; [done|]; split; [done|]; eauto).
Qed.
Lemma new_key_ok k s :
  (exists l, new_key k s = Done (Some (fresh (dom (key_mem s))), St (there s) (keys s) (lock s) (<[fresh (dom (key_mem s)) := k]> (key_mem s)) (object_mem s) l (fails s) (events s))) \/
  (exists l, new_key k s = Done (None, St (there s) (keys s) (lock s) (key_mem s) (object_mem s) l (1 + fails s) (events s))).
Proof. destruct s as [th ks lk km om l n es]. destruct l as [|[] l]; [left; by exists []|left; by exists l|right; by exists l]. Qed.

Lemma find_key_inside F b x k s f : good F -> inside b x s f ->
  exists r L, find_key F k (keys s) s = Done (r, s) /\ keys s = L.*1 /\ mem_ok b (key_mem s) (object_mem s) L /\ maps f L /\
    match r with
    | Failed => key_fails F f k
    | NotFound => f k = [] /\ ~ key_fails F f k
    | Found p => exists os L1 L2, L = L1 ++ (p, (k, os)) :: L2 /\ key_mem s !! p = Some (Key k os.*1) /\ f k = os.*2 /\ os <> []
    end.
Proof.
  intros [HF _] (_ & _ & L & HK & Hm & Hp). destruct (find_key_ok F k s L HF (mk_key _ _ _ _ Hm)) as (r & Hr & Hc). exists r, L. rewrite HK. do 4 (split; [done|]). destruct r as [| |p].
  - by apply (maps_fails _ _ L).
  - destruct Hc as [Hk Hc]. split; [by apply (maps_key f L)|]. rewrite (maps_fails _ _ L) by done. intros (q & y & os & ? & ?). by eapply Hc.
  - destruct Hc as (os & L1 & L2 & ->). exists os, L1, L2. split; [done|]. split; [eapply mk_key; [done|]; rewrite elem_of_app, elem_of_cons; auto|]. by eapply maps_objects.
Qed.

Lemma register_well F b t k o df dc s m : good F -> lock s = Free -> inv b s m -> (t = true -> m <> None) -> does_well F b (Register t k o df dc) s m.
Proof.
  intros HF Hl Hi Ht. destruct (negb t || (o =? 0) || (df =? 0)) eqn:E.
  { exists (RRegister REGISTER_MU_FAILURE), s, m, []. unfold run, object_lifetime_tracker_register_object. rewrite E, app_nil_r. split; [done|]. split; [|done]. constructor.
    rewrite !orb_true_iff, negb_true_iff, !Z.eqb_eq in E. tauto. }
  pose proof E as E'. rewrite !orb_false_iff, negb_false_iff, !Z.eqb_neq in E'. destruct E' as [[-> Ho] Hdf]. destruct m as [f|]; [|by destruct Ht].
  destruct (acquire_ok b Exclusive s f Hi) as (s1 & H1 & Hin & He1 & Hf1).
  destruct (find_key_inside F b Exclusive k s1 f HF Hin) as (r & L & Hr & HK & Hm & Hp & Hc).
  unfold does_well, run, object_lifetime_tracker_register_object. rewrite E. rewrite <- Hf1, <- He1. clear Hi Hl Hf1 He1 Ht E.
  set (body := fun s0 f0 => match f0 with
      | Failed => ret REGISTER_OBJECT_ERROR
      | Found kp => register_in F kp false o df dc
      | NotFound =>
        bind (new_key (Key k [])) (fun p =>
        match p with
        | None => ret REGISTER_OBJECT_ERROR
        | Some kp =>
          bind (set_keys (kp :: keys s0)) (fun _ =>
          bind (register_in F kp true o df dc) (fun r =>
          match r with
          | REGISTER_OBJECT_ERROR => bind get (fun s' => bind (set_keys (tail (keys s'))) (fun _ => bind (free_key kp) (fun _ => ret r)))
          | _ => ret r
          end))
        end)
      end).
  assert (exists r' s' m', body s1 r s1 = Done (r', s') /\ inside b Exclusive s' m' /\ events s' = events s1 /\ does F (bool_decide (fails s1 < fails s')%nat) (Register true k o df dc) (Some f) (RRegister r') (Some m') []) as Hb.
  { unfold body. clear body. destruct Hin as (Hth & Hlk & _). destruct HF as [HF HG]. pose proof (mk_ndk _ _ _ _ Hm) as Hndk. destruct r as [| |kp].
    - eexists _, _, f. split; [reflexivity|]. split; [split; [done|]; split; [done|]; eauto|]. split; [done|]. apply register_error; auto.
    - destruct Hc as [Hfk Hnk]. assert (k ∉ (fst <$> L.*2)) as Hk by (by apply (maps_key f L)).
      destruct (new_key_ok (Key k []) s1) as [[l' Hnew]|[l' Hnew]]; rewrite (bind_done _ _ _ _ _ Hnew).
      + set (kp := fresh (dom (key_mem s1))) in *. pose proof (mem_add_key b _ _ L kp k Hm (is_fresh _) Hk) as Hm'. unfold bind at 1. unfold set_keys at 1. cbn [there keys lock key_mem object_mem oracle fails events].
        destruct (register_in_ok F b kp true k [] [] L (St (there s1) (kp :: keys s1) (lock s1) (<[kp := Key k []]> (key_mem s1)) (object_mem s1) l' (fails s1) (events s1)) o df dc HG Hm') as (r & km' & om' & l2 & n2 & Hr2 & Hc2 & Hn).
        rewrite (bind_done _ _ _ _ _ Hr2). unfold with_mem. cbn [there keys lock key_mem object_mem oracle fails events] in *. rewrite app_nil_r. destruct Hc2 as [(-> & -> & -> & Hc2)|[(-> & _ & _ & _ & _ & e & He & _)|(-> & _ & a & Hm2)]].
        * ex. rewrite lookup_insert. ex. eexists _, _, f. split; [reflexivity|]. unfold inside. cbn [there keys lock key_mem object_mem oracle fails events tail].
          destruct Hc2 as [(e & He & _)|[Hc2 _]]; [by apply elem_of_nil in He|].
          split; [split; [done|]; split; [done|]; exists L; split; [done|]; split; [apply (mem_rm_key _ _ _ [] L kp k Hm')|done]|]. split; [done|]. apply register_error; [done..|]. right. right.
          split; [by apply bool_decide_eq_true|]. intros (e & He & _). rewrite Hfk in He. by apply elem_of_nil in He.
        * by apply elem_of_nil in He.
        * eexists _, _, (update f k [Obj o df dc]). split; [reflexivity|]. unfold inside. cbn [there keys lock key_mem object_mem oracle fails events]. split; [|split; [done|by apply register_new_key]].
          split; [done|]. split; [done|]. exists ((kp, (k, [(a, Obj o df dc)])) :: L). rewrite HK. split; [done|]. split; [done|]. by apply (maps_add _ _ _ _ [(a, Obj o df dc)]).
      + eexists _, _, f. split; [reflexivity|]. unfold inside. cbn [there keys lock key_mem object_mem oracle fails events]. split; [split; [done|]; split; [done|]; eauto|]. split; [done|]. apply register_error; [done..|]. right. right.
        split; [apply bool_decide_eq_true; lia|]. intros (e & He & _). rewrite Hfk in He. by apply elem_of_nil in He.
    - destruct Hc as (os & L1 & L2 & -> & Hkp & Hfk & Hne).
      destruct (register_in_ok F b kp false k os L1 L2 s1 o df dc HG Hm) as (r & km' & om' & l2 & n2 & Hr2 & Hc2 & Hn). rewrite Hr2. unfold with_mem. rewrite app_nil_r.
      destruct Hc2 as [(-> & -> & -> & Hc2)|[(-> & -> & -> & _ & _ & e & He & Heo)|(-> & Hno & a & Hm2)]].
      + eexists _, _, f. split; [reflexivity|]. unfold inside. cbn [there keys lock key_mem object_mem oracle fails events]. split; [split; [done|]; split; [done|]; eauto|]. split; [done|]. apply register_error; [done..|]. right.
        destruct Hc2 as [(e & He & Hee)|[Hc2 Hno]]; [left; exists e; by rewrite Hfk|right]. split; [by apply bool_decide_eq_true|]. intros (e & He & Hee). rewrite Hfk in He. by apply Hno in He.
      + eexists _, _, f. split; [reflexivity|]. unfold inside. cbn [there keys lock key_mem object_mem oracle fails events]. split; [split; [done|]; split; [done|]; eauto|]. split; [done|]. apply register_exists; [done..|]. exists e. by rewrite Hfk.
      + eexists _, _, (update f k (Obj o df dc :: f k)). split; [reflexivity|]. unfold inside. cbn [there keys lock key_mem object_mem oracle fails events]. split.
        * split; [done|]. split; [done|]. eexists. rewrite HK. split; [|split; [exact Hm2|]]; [by rewrite !fmap_app, !fmap_cons|]. rewrite Hfk. by apply (maps_update _ _ _ _ _ os ((a, Obj o df dc) :: os)).
        * split; [done|]. apply register_new_object; [done|done|by rewrite Hfk; destruct os|..].
          -- intros (e & He & Hee). rewrite Hfk in He. by apply Hno in He as [? ?].
          -- intros (e & He & Hee). rewrite Hfk in He. by apply Hno in He as [? ?]. }
  destruct Hb as (r' & s2 & m' & Hb & Hin2 & He2 & Hd). destruct (release_ok b Exclusive s2 m' Hin2) as (s3 & H3 & Hi3 & Hl3 & He3 & Hf3); [done|].
  exists (RRegister r'), s3, (Some m'), []. split; [|rewrite Hf3, He3, He2, app_nil_r; done].
  unfold bind at 1 2. rewrite H1. unfold bind at 1, get at 1. rewrite (bind_done _ _ _ _ _ Hr). change (bind (bind (body s1 r) (fun r0 => bind (release Exclusive) (fun _ => ret r0))) (fun r0 => ret (RRegister r0)) s1 = Done (RRegister r', s3)).
  unfold bind. rewrite Hb, H3. done.
Qed.

Ltac fields := cbn [there keys lock key_mem object_mem oracle fails events].
Lemma find_object_inside F b x k o s f p os L1 L2 : good F -> mem_ok b (key_mem s) (object_mem s) (L1 ++ (p, (k, os)) :: L2) -> f k = os.*2 -> inside b x s f ->
  exists r, find_object F o os.*1 s = Done (r, s) /\
    match r with
    | Failed => object_fails F f k o
    | NotFound => ~ registered f k o /\ ~ object_fails F f k o
    | Found a => exists e o1 o2, os = o1 ++ (a, e) :: o2 /\ object e = o /\ object_mem s !! a = Some e
    end.
Proof.
  intros [_ HF] Hm Hf _. assert (forall a e, (a, e) ∈ os -> object_mem s !! a = Some e) as Hom. { intros a e He. eapply mk_obj; [done| |done]. rewrite elem_of_app, elem_of_cons. auto. }
  destruct (find_object_ok F o s os HF Hom) as (r & Hr & Hc). exists r. split; [done|]. destruct r as [| |a].
  - destruct Hc as (e & He & Hee). exists e. by rewrite Hf.
  - unfold registered, object_fails. rewrite Hf. split; intros (e & He & Hee); by apply Hc in He as [? ?].
  - destruct Hc as (e & o1 & o2 & -> & He). exists e, o1, o2. split; [done|]. split; [done|]. apply Hom. rewrite elem_of_app, elem_of_cons. auto.
Qed.

Lemma unregister_well F b t k o s m : good F -> lock s = Free -> inv b s m -> (t = true -> m <> None) -> does_well F b (Unregister t k o) s m.
Proof.
  intros HF Hl Hi Ht. destruct (negb t || (o =? 0)) eqn:E.
  { exists (RUnregister UNREGISTER_OBJECT_ERROR), s, m, []. unfold run, object_lifetime_tracker_unregister_object. rewrite E, app_nil_r. split; [done|]. split; [|done]. constructor.
    rewrite !orb_true_iff, negb_true_iff, !Z.eqb_eq in E. tauto. }
  pose proof E as E'. rewrite !orb_false_iff, negb_false_iff, !Z.eqb_neq in E'. destruct E' as [-> Ho]. destruct m as [f|]; [|by destruct Ht].
  destruct (acquire_ok b Exclusive s f Hi) as (s1 & H1 & Hin & He1 & Hf1).
  destruct (find_key_inside F b Exclusive k s1 f HF Hin) as (r & L & Hr & HK & Hm & Hp & Hc).
  unfold does_well, run, object_lifetime_tracker_unregister_object. rewrite E. rewrite <- Hf1, <- He1. clear Hi Hl Hf1 He1 Ht E.
  set (body := fun f0 => match f0 with
      | Failed => ret UNREGISTER_OBJECT_ERROR
      | NotFound => ret UNREGISTER_KEY_NOT_FOUND
      | Found kp =>
        bind (get_key kp) (fun ks => bind (find_object F o (objects ks)) (fun g =>
        match g with
        | Failed => ret UNREGISTER_OBJECT_ERROR
        | NotFound => ret UNREGISTER_OBJECT_NOT_FOUND
        | Found op =>
          let l := remove op (objects ks) in
          bind (set_key kp (Key (key ks) l)) (fun _ => bind (free_object op) (fun _ =>
          bind (if decide (l = []) then bind get (fun s' => bind (set_keys (remove kp (keys s'))) (fun _ => free_key kp)) else ret tt) (fun _ =>
          ret UNREGISTER_OBJECT_OK)))
        end))
      end).
  assert (exists r' s' m', body r s1 = Done (r', s') /\ inside b Exclusive s' m' /\ events s' = events s1 /\ does F (bool_decide (fails s1 < fails s')%nat) (Unregister true k o) (Some f) (RUnregister r') (Some m') []) as Hb.
  { unfold body. clear body. pose proof (mk_ndk _ _ _ _ Hm) as Hndk. destruct r as [| |kp].
    - eexists _, _, f. split; [reflexivity|]. split; [done|]. split; [done|]. apply unregister_error; auto.
    - eexists _, _, f. split; [reflexivity|]. split; [done|]. split; [done|]. destruct Hc. by apply unregister_no_key.
    - destruct Hc as (os & L1 & L2 & -> & Hkp & Hfk & Hne).
      assert (get_key kp s1 = Done (Key k os.*1, s1)) as Hg by (unfold get_key, bind, get; by rewrite Hkp). rewrite (bind_done _ _ _ _ _ Hg). cbn [objects key].
      destruct (find_object_inside F b Exclusive k o s1 f kp os L1 L2 HF Hm Hfk Hin) as (g & Hg2 & Hc2). rewrite (bind_done _ _ _ _ _ Hg2). destruct g as [| |a].
      + eexists _, _, f. split; [reflexivity|]. split; [done|]. split; [done|]. apply unregister_error; auto.
      + eexists _, _, f. split; [reflexivity|]. split; [done|]. split; [done|]. destruct Hc2. apply unregister_no_object; [done| |done|done]. rewrite Hfk. by destruct os.
      + destruct Hc2 as (e & o1 & o2 & -> & He & Ha). pose proof (nodup_objects _ _ _ _ _ _ _ _ Hm) as Hnd.
        pose proof (mem_rm_object _ _ _ _ _ _ _ _ _ _ _ Hm) as Hm2. cbv zeta. rewrite (remove_object _ _ _ _ Hnd).
        unfold bind at 1, set_key at 1. rewrite (bind_done _ _ _ _ _ Hg). ex. destruct s1 as [th ks lk km om l n es]. cbn [there keys lock key_mem object_mem oracle fails events] in *. rewrite Ha.
        destruct Hin as (Hth & Hlk & _). simpl in Hth, Hlk. rewrite fmap_app, fmap_cons in Hfk. destruct (decide ((o1 ++ o2).*1 = [])) as [Hn|Hn].
        * apply fmap_nil_inv in Hn. rewrite Hn in *. rewrite lookup_insert. eexists _, _, (update f k []). split; [reflexivity|]. apply app_nil in Hn as [-> ->]. simpl in Hfk. split.
          -- split; [done|]. split; [done|]. fields. exists (L1 ++ L2). rewrite HK. split; [apply remove_mid, (mk_nd _ _ _ _ Hm)|]. split; [by apply (mem_rm_key _ _ _ _ _ _ k)|]. by eapply maps_remove.
          -- split; [done|]. by eapply (unregister_ok _ _ _ _ _ [] e []).
        * eexists _, _, (update f k (o1 ++ o2).*2). split; [reflexivity|]. split.
          -- split; [done|]. split; [done|]. fields. exists (L1 ++ (kp, (k, o1 ++ o2)) :: L2). rewrite HK. split; [by rewrite !fmap_app, !fmap_cons|]. split; [done|]. eapply maps_update; [done..|]. intros Hx. apply Hn. by rewrite Hx.
          -- split; [done|]. rewrite fmap_app. by eapply (unregister_ok _ _ _ _ _ _ e). }
  destruct Hb as (r' & s2 & m' & Hb & Hin2 & He2 & Hd). destruct (release_ok b Exclusive s2 m' Hin2) as (s3 & H3 & Hi3 & Hl3 & He3 & Hf3); [done|].
  exists (RUnregister r'), s3, (Some m'), []. split; [|rewrite Hf3, He3, He2, app_nil_r; done].
  unfold bind at 1 2. rewrite H1. unfold bind at 1, get at 1. rewrite (bind_done _ _ _ _ _ Hr). change (bind (bind (body r) (fun r0 => bind (release Exclusive) (fun _ => ret r0))) (fun r0 => ret (RUnregister r0)) s1 = Done (RUnregister r', s3)).
  unfold bind. rewrite Hb, H3. done.
Qed.

Lemma destroy_all_well F b t k s m : good F -> lock s = Free -> inv b s m -> (t = true -> m <> None) -> does_well F b (DestroyAll t k) s m.
Proof.
  intros HF Hl Hi Ht. destruct t; [|exists RUnit, s, m, []; rewrite app_nil_r; split; [done|]; split; [constructor|done]]. destruct m as [f|]; [|by destruct Ht].
  destruct (acquire_ok b Exclusive s f Hi) as (s1 & H1 & Hin & He1 & Hf1).
  destruct (find_key_inside F b Exclusive k s1 f HF Hin) as (r & L & Hr & HK & Hm & Hp & Hc).
  unfold does_well, run, object_lifetime_tracker_destroy_all_objects_for_key. rewrite <- Hf1, <- He1. clear Hi Hl Hf1 He1 Ht.
  set (body := fun f0 => match f0 with
      | Failed | NotFound => ret tt
      | Found kp => bind (get_key kp) (fun ks => bind (destroy_objects kp (objects ks)) (fun _ => bind get (fun s' => bind (set_keys (remove kp (keys s'))) (fun _ => free_key kp))))
      end).
  assert (exists s' m' es, body r s1 = Done (tt, s') /\ inside b Exclusive s' m' /\ events s' = events s1 ++ es /\ does F (bool_decide (fails s1 < fails s')%nat) (DestroyAll true k) (Some f) RUnit (Some m') es) as Hb.
  { unfold body. clear body. pose proof (mk_ndk _ _ _ _ Hm) as Hndk. destruct r as [| |kp].
    - eexists _, f, []. split; [reflexivity|]. split; [done|]. split; [by rewrite app_nil_r|]. apply destroy_all_none; auto.
    - eexists _, f, []. split; [reflexivity|]. split; [done|]. split; [by rewrite app_nil_r|]. apply destroy_all_none. by left; destruct Hc.
    - destruct Hc as (os & L1 & L2 & -> & Hkp & Hfk & Hne).
      assert (get_key kp s1 = Done (Key k os.*1, s1)) as Hg by (unfold get_key, bind, get; by rewrite Hkp). rewrite (bind_done _ _ _ _ _ Hg). cbn [objects key].
      destruct (destroy_objects_ok b kp k L1 L2 os s1 Hm) as (km & om & Hd & Hm2). rewrite (bind_done _ _ _ _ _ Hd). unfold with_mem. clear Hd Hr H1. destruct s1 as [th ks lk km1 om1 l n es]. cbn [there keys lock key_mem object_mem oracle fails events] in *. ex.
      rewrite (mk_key _ _ _ _ Hm2 kp k []); [|rewrite elem_of_app, elem_of_cons; auto]. eexists _, (update f k []), _. split; [reflexivity|]. destruct Hin as (Hth & Hlk & _). split.
      + split; [done|]. split; [done|]. fields. exists (L1 ++ L2). rewrite HK. split; [apply remove_mid, (mk_nd _ _ _ _ Hm)|]. split; [by apply (mem_rm_key _ _ _ _ _ _ k)|]. by eapply maps_remove.
      + split; [done|]. fields. rewrite <- Hfk. apply destroy_all_ok. rewrite Hfk. by destruct os. }
  destruct Hb as (s2 & m' & es & Hb & Hin2 & He2 & Hd). destruct (release_ok b Exclusive s2 m' Hin2) as (s3 & H3 & Hi3 & Hl3 & He3 & Hf3); [done|].
  exists RUnit, s3, (Some m'), es. split; [|rewrite Hf3, He3, He2; done].
  cbn [negb]. unfold bind at 1 2. rewrite H1. unfold bind at 1, get at 1. rewrite (bind_done _ _ _ _ _ Hr). change (bind (bind (body r) (fun _ => release Exclusive)) (fun _ => ret RUnit) s1 = Done (RUnit, s3)).
  unfold bind. rewrite Hb, H3. done.
Qed.

Lemma act_well F b t k o fn ctx s m : good F -> lock s = Free -> inv b s m -> (t = true -> m <> None) -> does_well F b (Act t k o fn ctx) s m.
Proof.
  intros HF Hl Hi Ht. destruct (negb t || (k =? 0) || (o =? 0) || (fn =? 0)) eqn:E.
  { exists (RAct ACT_ERROR), s, m, []. unfold run, object_lifetime_tracker_act. rewrite E, app_nil_r. split; [done|]. split; [|done]. constructor.
    rewrite !orb_true_iff, negb_true_iff, !Z.eqb_eq in E. tauto. }
  pose proof E as E'. rewrite !orb_false_iff, negb_false_iff, !Z.eqb_neq in E'. destruct E' as [[[-> Hk] Ho] Hfn]. destruct m as [f|]; [|by destruct Ht].
  destruct (acquire_ok b Shared s f Hi) as (s1 & H1 & Hin & He1 & Hf1).
  destruct (find_key_inside F b Shared k s1 f HF Hin) as (r & L & Hr & HK & Hm & Hp & Hc).
  unfold does_well, run, object_lifetime_tracker_act. rewrite E. rewrite <- Hf1, <- He1. clear Hi Hl Hf1 He1 Ht E.
  set (body := fun f0 => match f0 with
      | Failed => ret ACT_ERROR
      | NotFound => ret ACT_KEY_NOT_FOUND
      | Found kp =>
        bind (get_key kp) (fun ks => bind (find_object F o (objects ks)) (fun g =>
        match g with
        | Failed => ret ACT_ERROR
        | NotFound => ret ACT_OBJECT_NOT_FOUND
        | Found op => bind (get_object op) (fun os => bind (emit (Acted fn (object os) ctx)) (fun _ => ret (if decide (action F fn (object os) ctx <> 0) then ACT_ERROR else ACT_OK)))
        end))
      end).
  assert (exists r' s' es, body r s1 = Done (r', s') /\ inside b Shared s' f /\ events s' = events s1 ++ es /\ does F (bool_decide (fails s1 < fails s')%nat) (Act true k o fn ctx) (Some f) (RAct r') (Some f) es) as Hb.
  { unfold body. clear body. destruct r as [| |kp].
    - eexists _, _, []. split; [reflexivity|]. split; [done|]. split; [by rewrite app_nil_r|]. apply act_error; auto.
    - eexists _, _, []. split; [reflexivity|]. split; [done|]. split; [by rewrite app_nil_r|]. destruct Hc. by apply act_no_key.
    - destruct Hc as (os & L1 & L2 & -> & Hkp & Hfk & Hne).
      assert (get_key kp s1 = Done (Key k os.*1, s1)) as Hg by (unfold get_key, bind, get; by rewrite Hkp). rewrite (bind_done _ _ _ _ _ Hg). cbn [objects key].
      destruct (find_object_inside F b Shared k o s1 f kp os L1 L2 HF Hm Hfk Hin) as (g & Hg2 & Hc2). rewrite (bind_done _ _ _ _ _ Hg2). destruct g as [| |a].
      + eexists _, _, []. split; [reflexivity|]. split; [done|]. split; [by rewrite app_nil_r|]. apply act_error; auto.
      + eexists _, _, []. split; [reflexivity|]. split; [done|]. split; [by rewrite app_nil_r|]. destruct Hc2. apply act_no_object; [done..| |done|done]. rewrite Hfk. by destruct os.
      + destruct Hc2 as (e & o1 & o2 & -> & He & Ha). ex. destruct s1 as [th ks lk km om l n es]. cbn [there keys lock key_mem object_mem oracle fails events] in *. rewrite Ha.
        eexists _, _, _. split; [reflexivity|]. split; [exact Hin|]. split; [done|]. rewrite He. apply act_done; [done..| |].
        * exists e. rewrite Hfk, fmap_app, fmap_cons, elem_of_app, elem_of_cons. auto.
        * destruct (decide (action F fn o ctx <> 0)), (decide (action F fn o ctx = 0)); done. }
  destruct Hb as (r' & s2 & es & Hb & Hin2 & He2 & Hd). destruct (release_ok b Shared s2 f Hin2) as (s3 & H3 & Hi3 & Hl3 & He3 & Hf3); [done|].
  exists (RAct r'), s3, (Some f), es. split; [|rewrite Hf3, He3, He2; done].
  unfold bind at 1 2. rewrite H1. unfold bind at 1, get at 1. rewrite (bind_done _ _ _ _ _ Hr). change (bind (bind (body r) (fun r0 => bind (release Shared) (fun _ => ret r0))) (fun r0 => ret (RAct r0)) s1 = Done (RAct r', s3)).
  unfold bind. rewrite Hb, H3. done.
Qed.

Lemma mem_ok_nil km om : mem_ok false km om [].
Proof. split; try done; try (intros; by apply elem_of_nil in H || by apply elem_of_nil in H0); try constructor. all: intros * H; by apply elem_of_nil in H. Qed.
Lemma maps_nil : maps no_objects [].
Proof. split; [intros * H; by apply elem_of_nil in H|done]. Qed.
Lemma create_well F b x y s : lock s = Free -> inv b s None -> does_well F b (Create x y) s None.
Proof.
  intros Hl [Ht Hb]. assert (mem_ok b (key_mem s) (object_mem s) []) as Hm. { destruct b; [by apply Hb|apply mem_ok_nil]. }
  unfold does_well, run, object_lifetime_tracker_create. destruct (negb x || negb y) eqn:E.
  { exists (RBool false), s, None, []. rewrite app_nil_r. split; [done|]. split; [|done]. constructor. rewrite orb_true_iff, !negb_true_iff in E. tauto. }
  apply orb_false_iff in E as [->%negb_false_iff ->%negb_false_iff]. destruct s as [th ks lk km om l n es]. simpl in *. subst.
  destruct l as [|[] [|[] l]]; (eexists _, _, _, []; split; [reflexivity|]; fields; rewrite app_nil_r).
  1,2,3: split; [constructor|]; split; [done|]; split; [done|]; split; [done|]; split; [done|]; exists []; split; [done|]; split; [done|]; apply maps_nil.
  all: split; [apply create_fails, bool_decide_eq_true; lia|]; split; [done|]; split; [done|]; split; [done|]; exact Hb.
Qed.
(** Destroying a tracker that still has objects leaves their structs behind. *)
Lemma destroy_well F b t s m : lock s = Free -> inv b s m -> (t = true -> m <> None) ->
  does_well F (b && (negb t || match m with None => true | Some f => bool_decide (keys s = []) end)) (Destroy t) s m.
Proof.
  intros Hl Hi Ht. destruct t.
  - destruct m as [f|]; [|by destruct Ht]. destruct Hi as (Hth & _ & L & HK & Hm & Hp). unfold does_well, run, object_lifetime_tracker_destroy, bind, get. rewrite Hth, Hl.
    exists RUnit, (St false [] Free (key_mem s) (object_mem s) (oracle s) (fails s) (events s)), None, []. rewrite app_nil_r. split; [done|]. split; [constructor|]. split; [done|]. split; [done|]. split; [done|].
    fields. intros [-> Hk]%andb_true_iff. simpl in *. apply bool_decide_eq_true in Hk. rewrite Hk. rewrite HK in Hk. apply fmap_nil_inv in Hk. by subst.
  - exists RUnit, s, m, []. rewrite app_nil_r. simpl. rewrite andb_true_r. split; [done|]. split; [constructor|done].
Qed.
Lemma inv_weaken b s m : inv b s m -> inv false s m.
Proof. destruct m as [f|]; [|intros [H _]; by split]. intros (H1 & H2 & L & H3 & [M1 M2 M3 M4 M5 M6 M7] & H4). split; [done|]. split; [done|]. exists L. split; [done|]. split; [|done]. by split. Qed.
Lemma maps_empty f L : maps f L -> (forall k, f k = []) -> L = [].
Proof. intros [H _] Hf. destruct L as [|[p [k os]] L]; [done|]. destruct (H p k os) as [H1 H2]; [left|]. rewrite Hf in H1. by destruct os. Qed.
Lemma mem_empty km om : mem_ok true km om [] -> km = ∅ /\ om = ∅.
Proof.
  intros H. split; apply map_empty; intros i; apply eq_None_not_Some; intros Hi.
  - apply (mk_kall _ _ _ _ H eq_refl) in Hi. by apply elem_of_nil in Hi.
  - apply (mk_oall _ _ _ _ H eq_refl) in Hi. by apply elem_of_nil in Hi.
Qed.
