(** Releasing a reference to an array. *)
From Verif Require Import Common CbaModel Tally CbaSpec CbaFacts CbaProofs CbaCalls.
Local Open Scope Z_scope.

Lemma release_ok a s l : forall i f, (forall f j b, l !! j = Some b -> read_buffer a (i + j) (with_refs f s) = Done (b, with_refs f s)) -> (forall b, occ b l <= f b)%nat ->
  release_buffers a i (length l) (with_refs f s) = Done (tt, with_refs (subs f l) s).
Proof.
  induction l as [|x l IH]; intros i f Hrd Hf; simpl; [done|].
  erewrite bind_done by (pose proof (Hrd f 0%nat x eq_refl) as H0; rewrite Nat.add_0_r in H0; exact H0).
  pose proof (Hf x) as Hx. simpl in Hx. rewrite decide_True in Hx by done.
  rewrite (bind_done _ _ _ tt (with_refs (upd f x (pred (f x))) s)) by (unfold CONSTBUFFER_DecRef; simpl; destruct (f x); [lia|done]).
  apply IH.
  - intros f' j b Hj. rewrite <- (Hrd f' (S j) b Hj). f_equal. lia.
  - intros b. specialize (Hf b). simpl in Hf. unfold upd. repeat case_decide; subst; try done; lia.
Qed.

Lemma dec_ok fuel : forall a t s Z, R t s -> (0 < ours t a)%nat -> (a < fuel)%nat -> Z ##ₘ nodes s ->
  exists s', dec_ref_n fuel a (with_nodes (nodes s ∪ Z) s) = Done (tt, with_nodes (nodes s' ∪ Z) s') /\ R (put_arr a t) s' /\ (forall x, nodes s !! x = None -> nodes s' !! x = None) /\ fails s' = fails s.
Proof.
  induction fuel as [|fuel IH]; intros a t s Z HR Ho Hfuel HZ; [lia|].
  destruct (nodes s !! a) as [n|] eqn:Ha; [|pose proof (r_dead _ _ HR a Ha); lia].
  destruct (r_node _ _ HR a n Ha) as (l & Hl & Hc & Hmax & Hr & Hs). assert (Z !! a = None) as HZa. { destruct (Z !! a) eqn:E; [|done]. by destruct (map_disjoint_spec Z (nodes s)) as [H _]; destruct (H HZ a _ _ E Ha). }
  cbn [dec_ref_n]. erewrite bind_done by (unfold get_node; simpl; by rewrite (lookup_union_Some_l _ _ _ _ Ha)).
  destruct (nref n) as [|r] eqn:En; [lia|].
  erewrite bind_done by (unfold set_node; simpl; rewrite insert_union_l; reflexivity). case_decide as Hr0.
  2:{ exists (with_nodes (<[a := renumber n r]> (nodes s)) s). split; [done|]. split; [|split; [|done]].
      - apply (R_count t s _ a n r); try done; lia.
      - intros x Hx. simpl. rewrite lookup_insert_ne by congruence. done. }
  subst r. set (s0 := with_nodes (<[a := renumber n 0]> (nodes s) ∪ Z) (with_nodes (nodes s ∪ Z) s)).
  assert (forall f, agrees s (with_refs f s0)) as Hag.
  { intros f. split; [|done]. intros x nx Hx. simpl. destruct (decide (x = a)) as [->|Hne].
    - exists (renumber n 0). rewrite lookup_union_l' by (rewrite lookup_insert; eauto). rewrite lookup_insert. assert (nx = n) as -> by congruence. done.
    - exists nx. rewrite (lookup_union_Some_l _ _ x nx); [done|]. by rewrite lookup_insert_ne. }
  assert (forall f j b, l !! j = Some b -> read_buffer a (0 + j) (with_refs f s0) = Done (b, with_refs f s0)) as Hrd.
  { intros f j b Hj. by eapply (read_buffer_ok t s). }
  assert (delete a (<[a := renumber n 0]> (nodes s) ∪ Z) = delete a (nodes s) ∪ Z) as Hdel.
  { rewrite delete_union, delete_insert_delete, (delete_notin Z) by done. done. }
  assert (forall f m, free_node a (with_blocks m (with_refs f s0)) = Done (tt, with_nodes (delete a (nodes s) ∪ Z) (with_blocks m (with_refs f s0)))) as Hfree.
  { intros f m. unfold free_node. simpl. rewrite lookup_union_l' by (rewrite lookup_insert; eauto). rewrite lookup_insert. by rewrite Hdel. }
  assert (forall x, (upd (ours t) a (pred (ours t a)) x + (if decide (x = a) then 1 else 0) = ours t x)%nat) as Hours.
  { intros x. unfold upd. case_decide; subst; lia. }
  pose proof (r_buf _ _ HR) as Hbuf. unfold shape in Hs. rewrite Hc, len_nat. destruct (custom_free n) as [|c|p] eqn:Ec.
  - destruct Hs as [Hb Hmem]. exists (with_refs (subs (refs s) l) (with_nodes (delete a (nodes s)) s)).
    assert (forall b, occ b l <= refs s b)%nat as Hocc.
    { intros b. rewrite Hbuf. pose proof (tally_ge (fun _ n => occ b (stored n)) (nodes s) a n Ha) as H. simpl in H. rewrite Hmem, omap_some in H. lia. }
    split; [|split; [|split; [|done]]].
    + erewrite bind_done by (apply (release_ok a s0 l 0 (refs s) Hrd Hocc)). exact (Hfree (subs (refs s) l) (blocks s)).
    + eapply (R_delete t s _ a n l); try done; simpl; rewrite ?Ec; try done.
      * intros b. rewrite subs_at. specialize (Hocc b). lia.
      * intros x. unfold view_of. rewrite Ec. rewrite Hours. lia.
    + intros x Hx. simpl. rewrite lookup_delete_None. by right.
  - destruct Hs as (-> & Hmem & k & spare & Hb & Hk & Hmk). exists (with_blocks (delete k (blocks s)) (with_refs (subs (refs s) l) (with_nodes (delete a (nodes s)) s))).
    assert (forall b, occ b l <= refs s b)%nat as Hocc.
    { intros b. rewrite Hbuf. pose proof (tally_ge (fun _ c => occ b (bufs_in c)) (blocks s) k _ Hk) as H. simpl in H. rewrite bufs_full in H. lia. }
    split; [|split; [|split; [|done]]].
    + unfold constbuffer_array_move_buffers_free. erewrite bind_done.
      2:{ erewrite bind_done by (unfold get_node; simpl; rewrite lookup_union_l' by (rewrite lookup_insert; eauto); rewrite lookup_insert; reflexivity). 
          simpl. rewrite Hc, len_nat. erewrite bind_done by (apply (release_ok a s0 l 0 (refs s) Hrd Hocc)). rewrite Hb. unfold free_block. simpl. rewrite Hk. reflexivity. }
      rewrite (Hfree (subs (refs s) l)). done.
    + eapply (R_delete t s _ a n l); try done; simpl; rewrite ?Ec, ?Hb; try done.
      * intros b. rewrite subs_at. specialize (Hocc b). lia.
      * intros x. unfold view_of. rewrite Ec. rewrite Hours. lia.
    + intros x Hx. simpl. rewrite lookup_delete_None. by right.
  - destruct Hs as (Hpa & Hmem & np & lp & st & Hp & Hlp & _).
    set (o := fun x => (upd (ours t) a (pred (ours t a)) x + view_of x n)%nat).
    assert (R (Abs (data t) (seqs t) (mine t) o (mem t)) (with_nodes (delete a (nodes s)) s)) as HR1.
    { eapply (R_delete t s _ a n l); try done; simpl; rewrite ?Ec; try done.
      intros x. unfold o. rewrite <- (Hours x). lia. }
    destruct (IH p _ _ (<[a := renumber n 0]> Z) HR1) as (s' & E & HR' & Hdom & Hfl).
    + simpl. unfold o, view_of. rewrite Ec, decide_True by done. lia.
    + lia.
    + simpl. apply map_disjoint_insert_l_2; [by rewrite lookup_delete|]. by apply map_disjoint_delete_r.
    + exists s'. split; [|split; [|split; [|done]]].
      * simpl in E. erewrite bind_done.
        2:{ replace s0 with (with_nodes (delete a (nodes s) ∪ <[a := renumber n 0]> Z) (with_nodes (delete a (nodes s)) s)); [exact E|].
            unfold s0, with_nodes. simpl. f_equal. rewrite <- (insert_union_r (delete a (nodes s))) by (by rewrite lookup_delete). rewrite insert_union_l, insert_delete_insert, Ec. reflexivity. }
        unfold free_node. simpl. assert (nodes s' !! a = None) as Ha' by (apply Hdom; simpl; by rewrite lookup_delete).
        rewrite lookup_union_r by done. rewrite lookup_insert. rewrite delete_union, delete_notin, delete_insert by done. done.
      * eapply R_same; [exact HR'|done|done|done|done|]. intros x. simpl. unfold o, view_of, upd. rewrite Ec. repeat case_decide; subst; try done; lia.
      * intros x Hx. apply Hdom. simpl. rewrite lookup_delete_None. by right.
Qed.
Lemma with_nodes_id s : with_nodes (nodes s) s = s.
Proof. by destruct s. Qed.
Lemma dec_top t s a : R t s -> (0 < ours t a)%nat -> exists s', constbuffer_array_dec_ref (Some a) s = Done (tt, s') /\ R (put_arr a t) s' /\ fails s' = fails s.
Proof.
  intros HR Ho. destruct (dec_ok (S a) a t s ∅ HR Ho) as (s' & E & HR' & _ & Hf); [lia|apply map_disjoint_empty_l|]. exists s'. rewrite !(right_id_L ∅ (∪)), !with_nodes_id in E. done.
Qed.
Lemma sim_dec_arr a : sim (DecArr a).
Proof.
  intros t s HR Ha. cbn [run]. destruct a as [a|]; [|by eexists _, s, t]. destruct Ha as [l Hh]. destruct (dec_top t s a HR) as (s' & E & HR' & _); [apply Hh|].
  eexists _, _, _. erewrite bind_done by exact E. done.
Qed.
