(** Who holds the references. *)
From Verif Require Import Common CbaModel Tally CbaSpec CbaFacts CbaProofs CbaCalls CbaEnd CbaSlice.
Local Open Scope Z_scope.

Lemma sim_all o : sim o.
Proof.
  destruct o; eauto using sim_buffer, sim_inc, sim_dec, sim_alloc, sim_free, sim_create, sim_empty, sim_move, sim_view, sim_slice, sim_concat, sim_add_front, sim_add_back,
    sim_remove_front, sim_remove_back, sim_count, sim_get, sim_content, sim_inc_arr, sim_dec_arr, sim_size, sim_handles, sim_no_empty, sim_same.
Qed.
Lemma R_start o : R start (nothing o).
Proof. constructor; simpl; try done; try (intros; rewrite ?tally_empty; done); intros b Hb; lia. Qed.

Lemma tally_match {A B} (f : nat -> A -> nat) (g : nat -> B -> nat) (own : A -> option nat) m1 : forall m2 : gmap nat B,
  (forall a x, m1 !! a = Some x -> match own x with None => f a x = 0%nat | Some k => exists y, m2 !! k = Some y /\ f a x = g k y end) ->
  (forall a a' x x' k, m1 !! a = Some x -> m1 !! a' = Some x' -> own x = Some k -> own x' = Some k -> a = a') ->
  (forall k y, m2 !! k = Some y -> g k y = 0%nat \/ exists a x, m1 !! a = Some x /\ own x = Some k) -> tally f m1 = tally g m2.
Proof.
  induction m1 as [|a x m1 Ha IH] using map_ind; intros m2 H1 H2 H3.
  - rewrite tally_empty. symmetry. apply tally_zero. intros k y Hk. destruct (H3 k y Hk) as [|(a & x & ? & _)]; [done|]. by rewrite lookup_empty in *.
  - rewrite tally_insert by done. pose proof (H1 a x (lookup_insert _ _ _)) as Hx. destruct (own x) as [k|] eqn:Eo.
    + destruct Hx as (y & Hk & Hf). rewrite Hf. rewrite <- (insert_delete m2 k y Hk), tally_insert by apply lookup_delete. f_equal. apply IH.
      * intros a' x' Ha'. assert (a' <> a) as Hne by congruence. specialize (H1 a' x'). rewrite lookup_insert_ne in H1 by done. specialize (H1 Ha'). destruct (own x') as [k'|] eqn:Eo'; [|done].
        destruct H1 as (y' & Hk' & ?). exists y'. split; [|done]. rewrite lookup_delete_ne; [done|]. intros ->. apply Hne. symmetry. eapply (H2 a a'); [apply lookup_insert|rewrite lookup_insert_ne by done; exact Ha'|done|done].
      * intros a1 a2 x1 x2 k' Ha1 Ha2. eapply (H2 a1 a2); rewrite lookup_insert_ne by congruence; done.
      * intros k' y' [Hne Hk']%lookup_delete_Some. destruct (H3 k' y' Hk') as [|(a' & x' & [[<- <-]|[? Ha']]%lookup_insert_Some & ?)]; [by left|congruence|right; eauto].
    + rewrite Hx. simpl. apply IH.
      * intros a' x' Ha'. apply (H1 a' x'). rewrite lookup_insert_ne; [done|congruence].
      * intros a1 a2 x1 x2 k' Ha1 Ha2. eapply (H2 a1 a2); rewrite lookup_insert_ne by congruence; done.
      * intros k' y' Hk'. destruct (H3 k' y' Hk') as [|(a' & x' & [[<- <-]|[? Ha']]%lookup_insert_Some & ?)]; [by left|congruence|right; eauto].
Qed.
Lemma tally_split {A} (f : nat -> A -> nat) (m m' : gmap nat A) : m' ⊆ m -> tally f m = (tally f m' + tally f (m ∖ m'))%nat.
Proof.
  intros Hs. rewrite <- (map_difference_union m' m Hs) at 1. assert (m' ##ₘ m ∖ m') as Hd by (by apply map_disjoint_difference_r). revert Hd. generalize (m ∖ m'). clear Hs. intros q Hd.
  induction m' as [|k x m' Hk IH] using map_ind; [by rewrite (left_id_L ∅ (∪)), tally_empty|].
  apply map_disjoint_insert_l in Hd as [Hq Hd]. rewrite <- insert_union_l, !tally_insert, IH by (try done; by apply lookup_union_None). lia.
Qed.

Lemma tally_plus {A} (f g : nat -> A -> nat) m : tally (fun k x => f k x + g k x)%nat m = (tally f m + tally g m)%nat.
Proof. induction m as [|k x m Hk IH] using map_ind; [by rewrite !tally_empty|]. rewrite !tally_insert, IH by done. lia. Qed.
Lemma balanced t s b : R t s -> refs s b = (mine t b + in_mem t b + slots t s b)%nat.
Proof.
  intros HR. rewrite (r_buf _ _ HR b). assert (mem t ⊆ blocks s) as Hsub by (apply map_subseteq_spec, (r_mem _ _ HR)).
  rewrite (tally_split _ _ _ Hsub). fold (in_mem t b).
  set (moved := fun a n => match custom_free n with FreeMoved _ => occ b (default [] (seqs t !! a)) | _ => 0%nat end).
  assert (tally moved (nodes s) = tally (fun _ c => occ b (bufs_in c)) (blocks s ∖ mem t)) as Hm.
  { apply (tally_match _ _ (fun n => match custom_free n, buffers n with FreeMoved _, InBlock k O => Some k | _, _ => None end)).
    - intros a n Ha. destruct (r_node _ _ HR a n Ha) as (l & Hl & _ & _ & _ & Hsh). unfold shape in Hsh. unfold moved. destruct (custom_free n) as [|c|p]; [done| |done].
      destruct Hsh as (-> & _ & k & spare & -> & Hk & Hmk). exists (full l spare). rewrite Hl. simpl. split; [by apply lookup_difference_Some|by rewrite bufs_full].
    - intros a a' n n' k Ha Ha' Ho Ho'. destruct (r_node _ _ HR a n Ha) as (l & Hl & _ & _ & _ & Hsh). destruct (r_node _ _ HR a' n' Ha') as (l' & Hl' & _ & _ & _ & Hsh').
      unfold shape in *. destruct (custom_free n) as [|c|p] eqn:Ec; try done. destruct (custom_free n') as [|c'|p'] eqn:Ec'; try done.
      destruct Hsh as (-> & _ & k1 & s1 & Hb1 & _). destruct Hsh' as (-> & _ & k2 & s2 & Hb2 & _). rewrite Hb1 in Ho. rewrite Hb2 in Ho'. injection Ho as ->. injection Ho' as ->. by eapply (r_uniq _ _ HR).
    - intros k c [Hk Hmk]%lookup_difference_Some. right. destruct (r_own _ _ HR k c Hk) as [?|(a & n & Ha & Hc & Hb)]; [congruence|]. exists a, n. split; [done|]. by rewrite Hc, Hb. }
  rewrite <- Hm. enough (tally (fun _ n => occ b (stored n)) (nodes s) + tally moved (nodes s) = slots t s b)%nat by lia.
  rewrite <- tally_plus. apply tally_ext. intros a n Ha. destruct (r_node _ _ HR a n Ha) as (l & Hl & _ & _ & _ & Hsh). unfold shape in Hsh. unfold moved. rewrite Hl. destruct (custom_free n) as [|c|p]; simpl.
  - destruct Hsh as [_ ->]. rewrite omap_some. lia.
  - destruct Hsh as (_ & -> & _). done.
  - destruct Hsh as (_ & -> & _). done.
Qed.

(** Nothing is left behind *)
Lemma no_array_parked t s a : R t s -> (forall k c, mem t !! k = Some c -> arrs_in c = []) -> aparked a s = 0%nat.
Proof.
  intros HR Hm. apply tally_zero. intros k c Hk. destruct (r_own _ _ HR k c Hk) as [Hmk|(x & n & Hx & Hc & Hb)]; [by rewrite (Hm k c Hmk)|].
  destruct (r_node _ _ HR x n Hx) as (l & _ & _ & _ & _ & Hsh). unfold shape in Hsh. rewrite Hc in Hsh. destruct Hsh as (_ & _ & k' & spare & Hb' & Hk' & _). rewrite Hb in Hb'. injection Hb' as <-. rewrite Hk in Hk'. injection Hk' as ->. by rewrite arrs_full.
Qed.
Lemma all_gone t s : R t s -> (forall a, ours t a = 0%nat) -> (forall k c, mem t !! k = Some c -> arrs_in c = []) -> nodes s = ∅ /\ blocks s = mem t.
Proof.
  intros HR Ho Hm. assert (forall j a, (nnext s <= a + j)%nat -> nodes s !! a = None) as Hall.
  { induction j as [|j IH]; intros a Ha.
    - destruct (nodes s !! a) as [n|] eqn:E; [|done]. destruct (r_node _ _ HR a n E) as (l & Hl & _). apply (r_seq _ _ HR) in Hl. lia.
    - destruct (nodes s !! a) as [n|] eqn:E; [|done]. pose proof (r_arr _ _ HR a n E) as Hr. destruct (r_node _ _ HR a n E) as (l & _ & _ & _ & Hpos & _). rewrite Ho, (no_array_parked t s a HR Hm) in Hr.
      assert (views a s = 0)%nat as Hv; [|lia]. apply tally_zero. intros x nx Hx. destruct (r_node _ _ HR x nx Hx) as (lx & _ & _ & _ & _ & Hsh). unfold shape in Hsh. unfold view_of. destruct (custom_free nx) as [| |p]; [done|done|].
      case_decide; [|done]. subst. destruct Hsh as (Hlt & _). rewrite IH in Hx by lia. done. }
  assert (nodes s = ∅) as Hn by (apply map_eq; intros a; rewrite lookup_empty; apply (Hall (nnext s)); lia). split; [done|].
  apply map_eq. intros k. destruct (blocks s !! k) as [c|] eqn:E.
  - destruct (r_own _ _ HR k c E) as [?|(a & n & Ha & _)]; [done|]. by rewrite Hn in Ha.
  - destruct (mem t !! k) as [c|] eqn:E'; [|done]. apply (r_mem _ _ HR) in E'. congruence.
Qed.

(** The bytes of a slice *)
Lemma slice_concat t l skip keep : 0 <= skip -> 0 <= keep -> slice_ok t l skip keep -> l <> [] ->
  let whole := concat (map (bytes_of t) l) in
  concat (slice_bytes t l skip keep) =
    match l with [_] => take (Z.to_nat keep) (drop (Z.to_nat skip) whole) | _ => take (Z.to_nat (total t l - size_of t (List.last l 0%nat) + keep - skip)) (drop (Z.to_nat skip) whole) end.
Proof.
  intros Hs Hk Hok Hne. destruct l as [|b l]; [done|]. clear Hne. destruct l as [|e mid _] using rev_ind.
  - simpl. by rewrite !app_nil_r.
  - destruct (slice_more t b mid e skip keep) as [-> Hok']. apply Hok' in Hok as [Hb He]. simpl. rewrite map_app, !concat_app. simpl. rewrite !app_nil_r.
    assert (match mid ++ [e] with [] => b | _ :: _ => List.last (mid ++ [e]) 0%nat end = e) as Hl. { rewrite last_last. by destruct mid. } rewrite Hl.
    assert (total t (b :: mid ++ [e]) = size_of t b + Z.of_nat (length (concat (map (bytes_of t) mid))) + size_of t e) as Ht.
    { unfold total. simpl. rewrite map_app, foldr_app. simpl. rewrite Z.add_0_r. clear -b. induction mid as [|x mid IH]; simpl; [lia|]. rewrite app_length. unfold size_of at 2. lia. }
    assert (forall A (x y : A), match mid ++ [e] with [] => x | _ :: _ => y end = y) as Hm by (by destruct mid). rewrite Hm, Ht. clear Hm Hl. rewrite drop_app_le by (unfold size_of in *; lia).
    rewrite <- (take_drop (Z.to_nat keep) (bytes_of t e)) at 2. symmetry.
    rewrite (assoc_L (++) (concat _)), (assoc_L (++) (drop _ _)). apply take_app_alt. rewrite !app_length, drop_length, take_length. unfold size_of in *. lia.
Qed.
Lemma slice_ok_stable t l skip keep : ~ ~ slice_ok t l skip keep -> slice_ok t l skip keep.
Proof. unfold slice_ok. destruct l as [|b [|c l]]; [done| |]; lia. Qed.
Lemma slice_length t l skip keep : length (slice_bytes t l skip keep) = length l.
Proof.
  destruct l as [|b l]; [done|]. destruct l as [|e mid _] using rev_ind; [done|]. destruct (slice_more t b mid e skip keep) as [-> _]. simpl. by rewrite !app_length, map_length.
Qed.
Lemma slice_bytes_ok t s a l i n skip keep :
  R t s -> held t a l -> is_u32 i -> 1 <= n <= UINT32_MAX -> is_u32 skip -> is_u32 keep ->
  exists r s' t', constbuffer_array_create_from_buffer_offset_and_count (Some a) i n skip keep s = Done (r, s') /\ R t' s' /\
    let part := take (Z.to_nat n) (drop (Z.to_nat i) l) in
    let inside := i + n <= len l /\ slice_ok t part skip keep in
    match r with
    | None => t' = t /\ (~ inside \/ (fails s < fails s')%nat)
    | Some x => inside /\ ~ (fails s < fails s')%nat /\ exists l', held t' x l' /\ length l' = length part /\
        let whole := concat (map (bytes_of t) part) in
        concat (map (bytes_of t') l') =
          if decide (n = 1) then take (Z.to_nat keep) (drop (Z.to_nat skip) whole)
          else take (Z.to_nat (total t part - size_of t (List.last part 0%nat) + keep - skip)) (drop (Z.to_nat skip) whole)
    end.
Proof.
  intros HR Hh Hi Hn Hskip Hkeep. pose proof (fun P => of_array_held t (Some a) a l P Hh eq_refl) as Hof.
  destruct (sim_slice (Some a) i n skip keep t s HR) as (r & s' & t' & E & Heff & HR'); [exact (conj Hi (conj Hn (conj Hskip (conj Hkeep (ex_intro _ l Hh)))))|].
  cbn [run] in E. unfold bind in E. destruct (constbuffer_array_create_from_buffer_offset_and_count _ _ _ _ _ s) as [[r0 s0]| |] eqn:E0; try done. injection E as <- ->.
  exists r0, s', t'. split; [done|]. split; [done|]. cbn [effect] in Heff. destruct r0 as [x|]; cbn zeta; simpl in Heff.
  - destruct Heff as (Hbad & Hf & Hg). rewrite Hof in Hbad, Hg. set (part := take (Z.to_nat n) (drop (Z.to_nat i) l)) in *.
    assert (i + n <= len l) as Hin by (destruct (decide (i + n <= len l)); [done|tauto]). assert (slice_ok t part skip keep) as Hok by (apply slice_ok_stable; tauto).
    split; [done|]. split; [done|]. destruct Hg as (l' & d & Hd & Hmap & Hseq & ->). exists l'. split; [split; simpl; [rewrite upd_same; lia|by rewrite lookup_insert]|].
    assert (length l' = length part) as Hlen. { apply (f_equal length) in Hmap. rewrite !map_length, slice_length in Hmap. done. }
    split; [done|]. assert (map (bytes_of (Abs d (<[x:=l']> (seqs t)) (mine t) (upd (ours t) x (S (ours t x))) (mem t))) l' = slice_bytes t part skip keep) as Hb.
    { unfold bytes_of. simpl. rewrite <- (map_map (fun b => d !! b) (default [])), Hmap, map_map. simpl. apply map_id. }
    simpl in Hb |- *. rewrite Hb. pose proof (sub_length l i n Hi Hn Hin) as Hsl. fold part in Hsl. destruct Hskip, Hkeep.
    rewrite slice_concat; [|done|done|done|intros Hz; rewrite Hz in Hsl; simpl in Hsl; lia]. destruct part as [|b [|c part]]; simpl in Hsl.
    + lia.
    + by rewrite decide_True by lia.
    + by rewrite decide_False by lia.
  - destruct Heff as [Hbad ->]. split; [done|]. rewrite Hof in Hbad. done.
Qed.
