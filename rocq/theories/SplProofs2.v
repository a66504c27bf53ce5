(** constbuffer_array_splitter_split_to_array_of_array does what its specification says. *)
From Verif Require Import Common CbaModel Tally CbaSpec CbaFacts CbaProofs CbaCalls CbaEnd CbaSlice CbaBalance BatModel CbaLogic BatSpec BatProofs SplModel SplSpec SplProofs.
Local Open Scope Z_scope.

(** ** The number of failed allocations only grows *)
Definition mono {A} (m : M heap A) : Prop := forall s x s', m s = Done (x, s') -> (fails s <= fails s')%nat.
Lemma mono_bind {A B} (m : M heap A) (f : A -> M heap B) : mono m -> (forall x, mono (f x)) -> mono (bind m f).
Proof. intros Hm Hf s y s' (x & s1 & E1 & E2)%bind_inv. apply Hm in E1. apply Hf in E2. lia. Qed.
Lemma mono_ret {A} (x : A) : mono (ret x).
Proof. by intros s y s' [= -> ->]. Qed.
Lemma mono_undef {A} : mono (undef : M heap A).
Proof. by intros s y s' E. Qed.
Lemma mono_get a : mono (get_node a).
Proof. intros s x s'. unfold get_node. destruct (nodes s !! a); [|done]. by intros [= <- <-]. Qed.
Lemma mono_set a n : mono (set_node a n).
Proof. by intros s x s' [= <- <-]. Qed.
Lemma mono_free_node a : mono (free_node a).
Proof. intros s x s'. unfold free_node. destruct (nodes s !! a); [|done]. by intros [= <- <-]. Qed.
Lemma mono_inc b : mono (CONSTBUFFER_IncRef b).
Proof. intros s x s'. unfold CONSTBUFFER_IncRef. destruct (refs s b); [done|]. by intros [= <- <-]. Qed.
Lemma mono_dec b : mono (CONSTBUFFER_DecRef b).
Proof. intros s x s'. unfold CONSTBUFFER_DecRef. destruct (refs s b); [done|]. by intros [= <- <-]. Qed.
Lemma mono_content b : mono (CONSTBUFFER_GetContent b).
Proof. intros s x s'. unfold CONSTBUFFER_GetContent. destruct (refs s b); [done|]. by intros [= <- <-]. Qed.
Lemma mono_allocate : mono allocate.
Proof. intros s x s'. unfold allocate. destruct (oracle s) as [|[] o]; intros [= <- <-]; simpl; lia. Qed.
Lemma mono_new_buffer l : mono (new_buffer l).
Proof. apply mono_bind; [apply mono_allocate|]. intros []; [|apply mono_ret]. by intros s x s' [= <- <-]. Qed.
Lemma mono_new_node room c f : mono (new_node room c f).
Proof. apply mono_bind; [apply mono_allocate|]. intros []; [|apply mono_ret]. by intros s x s' [= <- <-]. Qed.
Lemma mono_inc_node a : mono (inc_node a).
Proof. apply mono_bind; [apply mono_get|]. intros n. destruct (nref n); [apply mono_undef|apply mono_set]. Qed.
Lemma mono_read p i : mono (read_place p i).
Proof. intros s x s'. unfold read_place. repeat case_match; try done; by intros [= <- <-]. Qed.
Lemma mono_read_buffer a i : mono (read_buffer a i).
Proof. apply mono_bind; [apply mono_get|intros; apply mono_read]. Qed.
Lemma mono_write_buffer a i b : mono (write_buffer a i b).
Proof. apply mono_bind; [apply mono_get|]. intros n. case_decide; [apply mono_set|apply mono_undef]. Qed.
Lemma mono_cut_buffer b o z : mono (CONSTBUFFER_CreateFromOffsetAndSize b o z).
Proof.
  apply mono_bind; [apply mono_content|]. intros c. cbn zeta. match goal with |- context[if ?x then _ else _] => destruct x end; [apply mono_ret|]. case_decide; [|apply mono_new_buffer]. apply mono_bind; [apply mono_inc|intros; apply mono_ret].
Qed.
Lemma mono_fill o a si c sb eb n : forall i, mono (fill_slice o a si c sb eb i n).
Proof.
  induction n as [|n IH]; intros i; cbn [fill_slice]; [apply mono_ret|]. apply mono_bind; [|intros; apply IH]. repeat case_decide; try apply mono_write_buffer.
  apply mono_bind; [apply mono_read_buffer|]. intros b. apply mono_bind; [apply mono_inc|intros; apply mono_write_buffer].
Qed.
Lemma mono_slice a i n skip keep : mono (constbuffer_array_create_from_buffer_offset_and_count a i n skip keep).
Proof.
  unfold constbuffer_array_create_from_buffer_offset_and_count. destruct a as [a|]; [|apply mono_ret]. apply mono_bind; [apply mono_get|intros nd]. match goal with |- context[if ?x then _ else _] => destruct x end; [apply mono_ret|].
  apply mono_bind; [apply mono_read_buffer|intros b]. apply mono_bind; [apply mono_content|intros c]. case_decide; [apply mono_bind; [apply mono_inc_node|intros; apply mono_ret]|].
  apply mono_bind; [apply mono_new_node|intros [x|]]; [|apply mono_ret]. case_decide.
  - apply mono_bind; [apply mono_read_buffer|intros ?]. apply mono_bind; [apply mono_cut_buffer|intros [?|]]; (apply mono_bind; [|intros; apply mono_ret]); [apply mono_write_buffer|apply mono_free_node].
  - apply mono_bind; [apply mono_read_buffer|intros ?]. apply mono_bind; [apply mono_content|intros ?]. apply mono_bind; [apply mono_cut_buffer|intros [?|]]; [|apply mono_bind; [apply mono_free_node|intros; apply mono_ret]].
    apply mono_bind; [apply mono_read_buffer|intros ?]. apply mono_bind; [apply mono_cut_buffer|intros [?|]].
    + apply mono_bind; [apply mono_fill|intros; apply mono_ret].
    + apply mono_bind; [apply mono_dec|intros _]. apply mono_bind; [apply mono_free_node|intros; apply mono_ret].
Qed.
Lemma wp_slice a l i n skip keep (Q : post (option nat)) t :
  held t a l -> is_u32 i -> 1 <= n <= UINT32_MAX -> is_u32 skip -> is_u32 keep -> i + n <= len l -> slice_ok t (take (Z.to_nat n) (drop (Z.to_nat i) l)) skip keep ->
  (forall f, (0 < f)%nat -> Q None t f) -> (forall x t', gives_bytes t x (slice_bytes t (take (Z.to_nat n) (drop (Z.to_nat i) l)) skip keep) t' -> Q (Some x) t' 0%nat) ->
  wp (constbuffer_array_create_from_buffer_offset_and_count (Some a) i n skip keep) Q t.
Proof.
  intros Hh Hi Hn Hs Hk Hin Hok HN HS s HR. destruct (slice_done t s a l i n skip keep HR Hh Hi Hn Hs Hk Hin) as (r & s' & t' & E & Ha & HR'). pose proof (mono_slice _ _ _ _ _ _ _ _ E) as Hmono.
  exists r, s', t', (fails s' - fails s)%nat. destruct r as [x|]; simpl in Ha.
  - destruct Ha as (_ & Hf & Hg). split_and!; [done|done|lia|]. replace (fails s' - fails s)%nat with 0%nat by lia. by apply HS.
  - destruct Ha as [[?|Hf] ->]; [done|]. split_and!; [done|done|lia|]. apply HN. lia.
Qed.
Lemma wp_buffer_content b (Q : post bytes) t : (0 < mine t b)%nat -> Q (bytes_of t b) t 0%nat -> wp (CONSTBUFFER_GetContent b) Q t.
Proof.
  intros Hb. apply wp_pure. intros s HR. pose proof (r_buf _ _ HR b) as Hr. unfold CONSTBUFFER_GetContent. destruct (refs s b) eqn:E; [lia|]. unfold bytes_of. rewrite (r_live _ _ HR b) by lia. done.
Qed.

Section arrays.
  Context (a : nat) (l : list nat) (max : Z) (n : nat) (k : nat).
  Notation mx := (Z.to_nat max).
  (** What the block with the arrays made so far is like *)
  Definition stored (t0 : abs) (xs : list nat) (t : abs) : Prop := kept t0 t /\ mem t = <[k := fulla xs (n - length xs)]> (mem t0) /\ (length xs <= n)%nat.
  Definition holds (t : abs) (x : nat) (p : bytes) : Prop := exists l', seqs t !! x = Some l' /\ Forall (fun b => is_Some (data t !! b)) l' /\ all_of_them t l' = p.
  Definition chunks (t0 : abs) (xs : list nat) (t : abs) : Prop := forall j x, xs !! j = Some x -> holds t x (take mx (drop (j * mx) (all_of_them t0 l))).
  Lemma holds_mono t t' x p : data t ⊆ data t' -> seqs t ⊆ seqs t' -> holds t x p -> holds t' x p.
  Proof.
    intros Hd Hs (l' & Hl & Hk & Hp). exists l'. split_and!; [by eapply lookup_weaken| |].
    - eapply Forall_impl; [exact Hk|]. intros b [c Hc]. exists c. by eapply lookup_weaken.
    - rewrite <- Hp. unfold all_of_them. f_equal. apply map_ext_in. intros b Hb%elem_of_list_In. destruct (proj1 (Forall_forall _ _) Hk b Hb) as [c Hc]. unfold bytes_of. by rewrite Hc, (lookup_weaken _ _ _ _ Hc Hd).
  Qed.

  Section base.
  Context (t0 : abs).
  Notation whole := (all_of_them t0 l).
  Notation pre i := (concat (map (bytes_of t0) (take i l))).
  Context (Hh : held t0 a l) (Hknown : Forall (fun b => is_Some (data t0 !! b) /\ size_of t0 b <= UINT32_MAX) l) (Hlen : len l <= UINT32_MAX) (Hk : mem t0 !! k = None).

  (** A slice of the buffers number start to start + cnt *)
  Definition slice_of (start cnt off e : nat) (m : nat) : Prop :=
    exists b, l !! (start + cnt)%nat = Some b /\
      ((cnt = 0%nat /\ (off + e <= length (bytes_of t0 b))%nat /\ m = e) \/
       ((0 < cnt)%nat /\ (exists b0, l !! start = Some b0 /\ (off <= length (bytes_of t0 b0))%nat) /\ (e <= length (bytes_of t0 b))%nat /\
        Z.of_nat m = total t0 (take cnt (drop start l)) - Z.of_nat off + Z.of_nat e)).
  Lemma slice_of_bytes t start cnt off e m : kept t0 t -> slice_of start cnt off e m ->
    let part := take (S cnt) (drop start l) in
    slice_ok t part (Z.of_nat off) (Z.of_nat e) /\ concat (slice_bytes t part (Z.of_nat off) (Z.of_nat e)) = take m (drop (length (pre start) + off) whole).
  Proof.
    intros Hkt (b & Hb & Hc). cbn zeta. assert (take (S cnt) (drop start l) = take cnt (drop start l) ++ [b]) as Hpart by (apply take_S_r; by rewrite lookup_drop). set (seg := take cnt (drop start l)) in *. rewrite Hpart.
    assert (forall x, x ∈ seg ++ [b] -> bytes_of t x = bytes_of t0 x) as Hbytes. { intros x Hx. eapply (kept_bytes t0 l); [done|done|]. rewrite <- Hpart in Hx. eapply elem_of_list_lookup in Hx as (i & Hi). apply lookup_take_Some in Hi as [Hi _]. rewrite lookup_drop in Hi. by eapply elem_of_list_lookup_2. }
    assert (map (bytes_of t) (seg ++ [b]) = map (bytes_of t0) (seg ++ [b])) as Hmap. { apply map_ext_in. intros x Hx%elem_of_list_In. by apply Hbytes. }
    assert (total t (seg ++ [b]) = total t0 (seg ++ [b])) as Htot. { unfold total. f_equal. apply map_ext_in. intros x Hx%elem_of_list_In. unfold size_of. by rewrite Hbytes. }
    assert (size_of t b = size_of t0 b) as Hsb. { unfold size_of. rewrite Hbytes; [done|]. apply elem_of_app. right. by apply elem_of_list_singleton. }
    assert (exists rest, whole = pre start ++ concat (map (bytes_of t0) (seg ++ [b])) ++ rest) as [rest Hw].
    { exists (concat (map (bytes_of t0) (drop (S cnt) (drop start l)))). rewrite <- Hpart, <- concat_app, <- map_app, take_drop. apply pre_whole. }
    assert (forall q, (off + q <= length (concat (map (bytes_of t0) (seg ++ [b]))))%nat -> take q (drop (length (pre start) + off) whole) = take q (drop off (concat (map (bytes_of t0) (seg ++ [b]))))) as Hcut.
    { intros q Hq. rewrite Hw. rewrite <- drop_drop, drop_app. rewrite drop_app_le by lia. rewrite take_app_le; [done|]. rewrite drop_length. lia. }
    destruct Hc as [(-> & Hoe & ->)|(Hcnt & (b0 & Hb0 & Hoff) & He & Hm)].
    - assert (seg = []) as -> by (unfold seg; by rewrite take_0). cbn [app] in *. assert (slice_ok t [b] (Z.of_nat off) (Z.of_nat e)) as Hok. { simpl. rewrite Hsb. unfold size_of. lia. }
      split; [done|]. rewrite slice_concat by (done || lia). rewrite Hmap, !Nat2Z.id. symmetry. apply Hcut. simpl. rewrite app_nil_r. done.
    - assert (exists seg', seg = b0 :: seg') as [seg' Hseg]. { unfold seg. rewrite (drop_S _ _ _ Hb0). destruct cnt; [lia|]. cbn [take]. eauto. }
      assert (bytes_of t b0 = bytes_of t0 b0) as Hb0'. { apply Hbytes. rewrite Hseg. left. }
      assert (slice_ok t (seg ++ [b]) (Z.of_nat off) (Z.of_nat e)) as Hok. { rewrite Hseg. simpl. destruct (slice_more t b0 seg' b (Z.of_nat off) (Z.of_nat e)) as [_ H]. apply H. unfold size_of. rewrite Hb0'. split; [lia|]. unfold size_of in Hsb. lia. }
      split; [done|]. rewrite slice_concat by (done || lia || (by destruct seg)).
      assert (List.last (seg ++ [b]) 0%nat = b) as -> by apply last_last. rewrite Htot, Hsb, Hmap.
      assert (total t0 (seg ++ [b]) = total t0 seg + size_of t0 b) as Hts. { unfold total. rewrite map_app, foldr_app. simpl. rewrite Z.add_0_r. clear. induction seg as [|x seg IH]; simpl; lia. }
      assert (Z.to_nat (total t0 (seg ++ [b]) - size_of t0 b + Z.of_nat e - Z.of_nat off) = m) as -> by lia.
      rewrite Hseg. cbn [app]. assert (exists y z, seg' ++ [b] = y :: z) as (y & z & Hyz). { destruct seg'; [by exists b, []|]. simpl. eauto. } rewrite Hyz. cbn [app]. rewrite <- Hyz. rewrite Nat2Z.id. symmetry.
      change (b0 :: seg' ++ [b]) with ((b0 :: seg') ++ [b]). rewrite <- Hseg. apply Hcut.
      assert (Z.of_nat (length (concat (map (bytes_of t0) (seg ++ [b])))) = total t0 (seg ++ [b])) as Hl. { rewrite total_len. done. } unfold size_of in *. lia.
  Qed.
  Lemma wp_store xs start cnt off e m (Q : post bool) t :
    stored t0 xs t -> (length xs < n)%nat -> slice_of start cnt off e m -> Z.of_nat off <= UINT32_MAX -> Z.of_nat e <= UINT32_MAX ->
    (forall f, (0 < f)%nat -> Q false t f) ->
    (forall x t', stored t0 (xs ++ [x]) t' -> data t ⊆ data t' -> seqs t ⊆ seqs t' -> holds t' x (take m (drop (length (pre start) + off) whole)) -> Q true t' 0%nat) ->
    wp (store_slice (Some a) k (length xs) (Z.of_nat start) (Z.of_nat (S cnt)) (Z.of_nat off) (Z.of_nat e)) Q t.
  Proof.
    intros (Hkt & Hm & Hxn) Hlt Hs Hoff He HN HS. destruct (slice_of_bytes t start cnt off e m Hkt Hs) as [Hok Hb]. destruct Hs as (b & Hbl & _). apply lookup_lt_Some in Hbl.
    unfold store_slice. apply wp_bind. eapply (wp_slice a l); [by eapply kept_held|unfold is_u32, len in *; lia|unfold len in *; lia|by split; [lia|]|by split; [lia|]|unfold len; lia| | |]; rewrite ?Nat2Z.id; [done| |].
    - intros f Hf. apply wp_ret. rewrite Nat.add_0_r. by apply HN.
    - intros x t1 (l' & d & Hd & Hmap & Hg). destruct (gives_unchanged _ _ _ _ Hg) as (F1 & F2 & F3 & F4 & F5 & F6). simpl in F1, F2, F3, F4, F5, F6. destruct Hkt as (K1 & K2 & K3 & K4).
      apply wp_bind. replace (n - length xs)%nat with (S (n - length (xs ++ [x]))) in Hm by (rewrite app_length; simpl; lia).
      eapply (wp_write k (fulla xs (S (n - length (xs ++ [x]))))); [by rewrite F4, Hm, lookup_insert|apply array_free|rewrite F6, upd_same; lia|]. rewrite put_array. apply wp_ret. cbn [moved_out]. apply (HS x).
      + split_and!; simpl.
        * split_and!; simpl; [rewrite F1; by etrans|by etrans|intros; by rewrite F5|]. intros y. rewrite F6. unfold upd. repeat case_decide; subst; try done; rewrite ?K4; simpl; try done.
        * by rewrite F4, Hm, insert_insert.
        * rewrite app_length. simpl. lia.
      + simpl. by rewrite F1.
      + done.
      + exists l'. simpl. split_and!; [done| |].
        * rewrite F1. apply Forall_forall. intros y Hy. assert (d !! y ∈ map (fun b => d !! b) l') as Hin by (by apply (elem_of_list_fmap_1 (fun b => d !! b))). rewrite Hmap in Hin. apply elem_of_list_fmap in Hin as (c & -> & _). eauto.
        * rewrite <- Hb. unfold all_of_them. f_equal. unfold bytes_of. simpl. rewrite F1, <- (map_map (fun b => d !! b) (default [])), Hmap, map_map. simpl. apply map_id.
  Qed.

  (** ** The loop *)
  Context (Hmx : 0 < max <= UINT32_MAX) (Hfit : len whole <= UINT32_MAX) (Hn1 : (length whole <= n * mx)%nat) (Hn2 : forall j, (j * mx < length whole)%nat -> (j < n)%nat) (Hn3 : (n * mx < length whole + mx)%nat).
  Lemma pre_add start cnt : length (pre (start + cnt)) = (length (pre start) + length (concat (map (bytes_of t0) (take cnt (drop start l)))))%nat.
  Proof. rewrite <- app_length, <- concat_app, <- map_app. f_equal. f_equal. f_equal. by rewrite <- take_take_drop. Qed.
  Lemma total_seg start cnt : total t0 (take cnt (drop start l)) = len (pre (start + cnt)) - len (pre start).
  Proof. rewrite total_len. unfold len, all_of_them. rewrite pre_add. lia. Qed.
  Lemma pre_mono i j : (i <= j)%nat -> (length (pre i) <= length (pre j))%nat.
  Proof. intros H. replace j with (i + (j - i))%nat by lia. rewrite pre_add. lia. Qed.
  Lemma chunks_snoc xs x m t t' : chunks t0 xs t -> data t ⊆ data t' -> seqs t ⊆ seqs t' -> holds t' x (take m (drop (length xs * mx) whole)) -> m = mx \/ ((length xs * mx + m = length whole)%nat /\ (m <= mx)%nat) -> chunks t0 (xs ++ [x]) t'.
  Proof.
    intros Hc Hd Hs Hx Hm j y Hj. destruct (decide (j < length xs)%nat) as [Hlt|Hge].
    - rewrite lookup_app_l in Hj by done. eapply holds_mono; [done|done|]. by apply Hc.
    - apply lookup_lt_Some in Hj as Hj2. rewrite app_length in Hj2. simpl in Hj2. assert (j = length xs) as -> by lia. rewrite lookup_app_r, Nat.sub_diag in Hj by lia. injection Hj as ->.
      replace (take mx (drop (length xs * mx) whole)) with (take m (drop (length xs * mx) whole)); [done|]. destruct Hm as [->|[H1 H2]]; [done|]. rewrite !take_ge; [done| |]; rewrite drop_length; lia.
  Qed.
  Lemma full_up (xs : list nat) : (length xs <= n)%nat -> (length whole <= length xs * mx)%nat -> length xs = n.
  Proof. intros H1 H2. destruct (decide (length xs < n)%nat); [|lia]. assert ((length xs + 1) * mx <= n * mx)%nat by (apply Nat.mul_le_mono_r; lia). lia. Qed.

  (** Before an iteration for the buffer number i: the buffers from start on, without the first off bytes, are not in an array yet; that is cur bytes. *)
  Definition ready (i : nat) (v : vars) (xs : list nat) : Prop := exists start cnt off cur,
    v = Vars (Z.of_nat start) (Z.of_nat off) (Z.of_nat cnt) (Z.of_nat cur) (length xs) (length xs) false /\ (start + cnt)%nat = i /\
    (cnt = 0%nat -> off = 0%nat) /\ (exists b0, l !! start = Some b0 /\ (off <= length (bytes_of t0 b0))%nat) /\
    (length (pre start) + off = length xs * mx)%nat /\ (length xs * mx + cur = length (pre i))%nat /\ (cur <= mx)%nat /\ (length xs * mx < length whole)%nat.
  Definition good (i : nat) (v : vars) (t : abs) : Prop := exists xs, failed v = false /\ stored t0 xs t /\ chunks t0 xs t /\
    ((length l <= S i <= S (length l) /\ length xs = n /\ buffer_array_count v = n /\ (i = length l -> length whole = n * mx))%nat \/ ((S i < length l)%nat /\ ready (S i) v xs)).
  Definition bad (v : vars) (t : abs) : Prop := failed v = true /\ exists xs, stored t0 xs t /\ buffer_array_count v = length xs.
  Lemma ready_slice i v (xs : list nat) start cnt off cur q b e m :
    v = Vars (Z.of_nat start) (Z.of_nat off) (Z.of_nat cnt) (Z.of_nat cur) (length xs) (length xs) false -> (start + cnt)%nat = i ->
    (cnt = 0%nat -> off = 0%nat) -> (exists b0, l !! start = Some b0 /\ (off <= length (bytes_of t0 b0))%nat) -> (length (pre start) + off = length xs * mx)%nat ->
    l !! (i + q)%nat = Some b -> (e <= length (bytes_of t0 b))%nat -> (length xs * mx + m = length (pre (i + q)) + e)%nat -> slice_of start (cnt + q) off e m.
  Proof.
    intros _ <- Hoff Hb0 Hpos Hb He Hm. exists b. rewrite Nat.add_assoc. split; [done|]. destruct (decide (cnt + q = 0)%nat) as [H0|H0].
    - left. assert (cnt = 0%nat) as -> by lia. assert (q = 0%nat) as -> by lia. rewrite (Hoff eq_refl) in *. rewrite !Nat.add_0_r in *. split_and!; [done|lia|lia].
    - right. split_and!; [lia|done|done|]. rewrite total_seg, Nat.add_assoc. unfold len. lia.
  Qed.

  Lemma wp_fits i b v xs (Q : post vars) t :
    stored t0 xs t -> chunks t0 xs t -> ready i v xs -> l !! i = Some b -> current_buffer_size v + size_of t0 b < max ->
    (forall v' t', good i v' t' -> Q v' t' 0%nat) -> (forall v' t' f, bad v' t' -> (0 < f)%nat -> Q v' t' f) ->
    wp (fits (Some a) k (len l) (Z.of_nat i) (size_of t0 b) v) Q t.
  Proof.
    intros Hst Hch (start & cnt & off & cur & Hv & Hi & Hoff & Hb0 & Hpos & Hcur & Hcm & Hlt) Hb Hsz HS HN. pose proof (lookup_lt_Some _ _ _ Hb) as Hil. unfold fits. rewrite Hv in *. cbn [start_buffer_index start_buffer_offset current_buffer_count current_buffer_size index buffer_array_count failed] in *.
    pose proof (pre_S t0 l _ _ Hb) as Hpre. apply (f_equal length) in Hpre. rewrite app_length in Hpre. assert (size_of t0 b = Z.of_nat (length (bytes_of t0 b))) as Hs by done. rewrite Hs in *.
    rewrite !u32_id by (unfold len in *; lia). replace (Z.of_nat i =? len l - 1) with (bool_decide (S i = length l)) by (unfold len; case_bool_decide; lia). case_bool_decide as Hlast.
    - apply wp_bind. replace (Z.of_nat cnt + 1) with (Z.of_nat (S cnt)) by lia. pose proof (pre_all t0 l (S i) ltac:(lia)) as Hall. apply (f_equal length) in Hall. eapply (wp_store xs start cnt off (length (bytes_of t0 b)) (cur + length (bytes_of t0 b))); [done|by apply Hn2| | |lia| |].
      + rewrite <- (Nat.add_0_r cnt). eapply (ready_slice i _ xs start cnt off cur 0 b); try done; rewrite Nat.add_0_r; [done|lia].
      + pose proof (pre_le t0 l start). unfold len in Hfit. lia.
      + intros f Hf. apply wp_ret. rewrite Nat.add_0_r. apply HN; [|done]. split; [done|]. by exists xs.
      + intros x t' Hst' Hd Hsq Hx. rewrite Hpos in Hx. apply wp_ret. apply HS. exists (xs ++ [x]). split_and!; try done.
        * eapply chunks_snoc; try done. right. lia.
        * left. split; [lia|]. assert (length (xs ++ [x]) = n) as Hn; [|split; [done|split; [simpl; rewrite <- Hn, app_length; simpl; lia|]]]. apply full_up; [apply Hst'|]. rewrite app_length. simpl. lia. lia.
    - apply wp_ret, HS. exists xs. split_and!; try done. right. split; [lia|]. exists start, (S cnt), off, (cur + length (bytes_of t0 b))%nat. split_and!; try done; try lia.
      f_equal; lia.
  Qed.

  Lemma wp_skip_empty fuel : forall i cnt e he (Q : post (Z * Z * Z * bool)) t,
    kept t0 t -> (i < length l)%nat -> (cnt <= S i)%nat -> (length l < fuel + i)%nat ->
    (forall q i', (i + q < length l)%nat -> length (pre (S (i + q))) = length (pre (S i)) ->
       ((i' = (i + q)%nat /\ exists b', l !! S (i + q) = Some b' /\ (0 < length (bytes_of t0 b'))%nat) \/ (i' = length l /\ S (i + q) = length l)) ->
       Q (Z.of_nat i', Z.of_nat (cnt + q), if decide (q = 0)%nat then e else 0, if decide (q = 0)%nat then he else true) t 0%nat) ->
    wp (skip_empty fuel (Some a) (len l) (Z.of_nat i) (Z.of_nat cnt) e he) Q t.
  Proof.
    induction fuel as [|fuel IH]; intros i cnt e he Q t Hkt Hi Hci Hf HQ; [lia|]. cbn [skip_empty]. rewrite u32_id by (unfold len in *; lia). replace (Z.of_nat i + 1) with (Z.of_nat (S i)) by lia.
    destruct (Z.of_nat (S i) <? len l) eqn:El.
    - destruct (lookup_lt_is_Some_2 l (S i)) as [b Hb]; [unfold len in El; lia|]. pose proof (pre_S t0 l _ _ Hb) as Hpre. apply (f_equal length) in Hpre. rewrite app_length in Hpre.
      apply wp_bind. eapply (wp_get a l); [by eapply kept_held|lia|by rewrite Nat2Z.id|]. cbn iota. apply wp_bind. apply wp_buffer_content; [simpl; rewrite upd_same; lia|].
      assert (bytes_of (get_buf b t) b = bytes_of t0 b) as ->. { eapply (kept_bytes t0 l Hknown t b); [done|]. by eapply elem_of_list_lookup_2. }
      apply wp_bind. apply wp_dec; [simpl; rewrite upd_same; lia|]. eapply (wp_eqv _ _ _ t). { split_and!; try done. simpl. intros b'. unfold upd. repeat case_decide; subst; done || lia. }
      unfold size. destruct (Z.of_nat (length (bytes_of t0 b)) =? 0) eqn:E0.
      + rewrite u32_id by (unfold len in *; lia). replace (Z.of_nat cnt + 1) with (Z.of_nat (S cnt)) by lia. apply IH; [done|unfold len in El; lia|lia|lia|]. intros q i' Hq Hp Hor. specialize (HQ (S q) i').
        replace (i + S q)%nat with (S i + q)%nat in HQ by lia. replace (cnt + S q)%nat with (S cnt + q)%nat in HQ by lia.
        assert ((if decide (q = 0%nat) then 0 else 0) = 0) as -> by (by destruct (decide (q = 0%nat))). assert ((if decide (q = 0%nat) then true else true) = true) as -> by (by destruct (decide (q = 0%nat))). apply HQ; [done|lia|done].
      + apply wp_ret. rewrite u32_id by (unfold len in *; lia). replace (Z.of_nat (S i) - 1) with (Z.of_nat i) by lia. specialize (HQ 0%nat i). rewrite !Nat.add_0_r in HQ. apply HQ; [done|done|]. left. split; [done|]. exists b. split; [done|lia].
    - apply wp_ret. specialize (HQ 0%nat (length l)). rewrite !Nat.add_0_r in HQ. replace (Z.of_nat (S i)) with (Z.of_nat (length l)) by (unfold len in El; lia). apply HQ; [done|done|]. right. unfold len in El. split; [done|lia].
  Qed.

  Lemma wp_cut i b cnt cur fuel : forall xs off rem t,
    stored t0 xs t -> chunks t0 xs t -> l !! i = Some b -> (length (pre i) + off = length xs * mx)%nat -> (off + rem = length (bytes_of t0 b))%nat -> (0 < rem < fuel)%nat ->
    wp (cut fuel (Some a) k max (Z.of_nat rem) (Vars (Z.of_nat i) (Z.of_nat off) cnt cur (length xs) (length xs) false)) (fun r t' f =>
      exists xs' off' rem', stored t0 xs' t' /\ (off' + rem' = length (bytes_of t0 b))%nat /\ r = (Z.of_nat rem', Vars (Z.of_nat i) (Z.of_nat off') cnt cur (length xs') (length xs') (bool_decide (mx < rem')%nat)) /\ (0 < rem')%nat /\
        (length (pre i) + off' = length xs' * mx)%nat /\ if decide (mx < rem')%nat then (0 < f)%nat else f = 0%nat /\ chunks t0 xs' t') t.
  Proof.
    induction fuel as [|fuel IH]; intros xs off rem t Hst Hch Hb Hpos Hrem Hf; [lia|]. cbn [cut]. pose proof (pre_S t0 l _ _ Hb) as Hpre. apply (f_equal length) in Hpre. rewrite app_length in Hpre. pose proof (pre_le t0 l (S i)).
    pose proof (lookup_lt_Some _ _ _ Hb) as Hil. destruct (Z.of_nat rem >? max) eqn:Eg.
    - cbn [start_buffer_index start_buffer_offset current_buffer_count current_buffer_size index buffer_array_count failed]. apply wp_bind. replace max with (Z.of_nat mx) at 1 by lia.
      eapply (wp_store xs i 0 off mx mx); [done|apply Hn2; lia| |unfold len in Hfit; lia|lia| |].
      + exists b. rewrite Nat.add_0_r. split; [done|]. left. split_and!; [done|lia|done].
      + intros f Hf'. apply wp_ret. exists xs, off, rem. split_and!; try done; [|lia|rewrite decide_True by lia; lia]. rewrite bool_decide_true by lia. done.
      + intros x t' Hst' Hd Hs Hx. rewrite Hpos in Hx. rewrite !u32_id by (unfold len in *; lia). replace (Z.of_nat rem - max) with (Z.of_nat (rem - mx)) by lia. replace (Z.of_nat off + max) with (Z.of_nat (off + mx)) by lia.
        replace (S (length xs)) with (length (xs ++ [x])) by (rewrite app_length; simpl; lia). apply IH; try done; [|rewrite app_length; simpl; lia|lia|lia]. eapply chunks_snoc; try done. by left.
    - apply wp_ret. exists xs, off, rem. split_and!; try done; [|lia|rewrite decide_False by lia; done]. rewrite bool_decide_false by lia. done.
  Qed.

  Lemma wp_fills i b v xs (Q : post (Z * vars)) t :
    stored t0 xs t -> chunks t0 xs t -> ready i v xs -> l !! i = Some b -> max <= current_buffer_size v + size_of t0 b ->
    (forall i' v' t', (i <= i')%nat -> good i' v' t' -> Q (Z.of_nat i', v') t' 0%nat) -> (forall i' v' t' f, bad v' t' -> (0 < f)%nat -> Q (i', v') t' f) ->
    wp (fills (Some a) k (len l) max (Z.of_nat i) (size_of t0 b) v) Q t.
  Proof.
    intros Hst Hch (start & cnt & off & cur & Hv & Hi & Hoff & Hb0 & Hpos & Hcur & Hcm & Hlt) Hb Hsz HS HN. pose proof (lookup_lt_Some _ _ _ Hb) as Hil. unfold fills. rewrite Hv in *.
    cbn [start_buffer_index start_buffer_offset current_buffer_count current_buffer_size index buffer_array_count failed] in *.
    pose proof (pre_S t0 l _ _ Hb) as Hpre. apply (f_equal length) in Hpre. rewrite app_length in Hpre. assert (size_of t0 b = Z.of_nat (length (bytes_of t0 b))) as Hs by done. rewrite Hs in *. pose proof (pre_le t0 l (S i)) as Hle. pose proof (pre_le t0 l start) as Hles.
    set (sz := length (bytes_of t0 b)) in *. rewrite (u32_id (Z.of_nat cnt + 1)), (u32_id (max - Z.of_nat cur)), (u32_id (Z.of_nat cur + Z.of_nat sz)) by (unfold len in *; lia).
    replace (max - Z.of_nat cur) with (Z.of_nat (mx - cur)) by lia. replace (Z.of_nat cnt + 1) with (Z.of_nat (S cnt)) by lia. pose proof (Hn2 _ Hlt) as Hxn. apply wp_bind.
    destruct (Z.of_nat cur + Z.of_nat sz =? max) eqn:Eeq.
    - (* exactly max bytes, with the empty buffers that follow *)
      eapply (wp_skip_empty); [apply Hst|done|lia|unfold len; lia|]. intros q i' Hq Hp Hor. cbn beta iota.
      destruct (lookup_lt_is_Some_2 l (i + q)) as [b' Hb']; [done|].
      assert (exists e, (if decide (q = 0%nat) then Z.of_nat (mx - cur) else 0) = Z.of_nat e /\ (e <= length (bytes_of t0 b'))%nat /\ (length xs * mx + mx = length (pre (i + q)) + e)%nat /\ (q = 0%nat -> e = sz) /\ Z.of_nat e <= UINT32_MAX) as (e & -> & He & Hme & Hq0 & Heu).
      { case_decide as Hq0.
        - subst q. exists (mx - cur)%nat. rewrite Nat.add_0_r in *. rewrite Hb in Hb'. injection Hb' as <-. fold sz. split_and!; [done|lia|lia|lia|lia].
        - exists 0%nat. split_and!; [done|lia| |done|unfold UINT32_MAX; lia]. assert (length (pre (S (i + q))) = (length (pre (i + q)) + length (bytes_of t0 b'))%nat) as Hx by (rewrite (pre_S t0 l _ _ Hb'), app_length; done).
          pose proof (pre_mono (S i) (i + q) ltac:(lia)). lia. }
      apply wp_bind. change (S cnt + q)%nat with (S (cnt + q)). eapply (wp_store xs start (cnt + q) off e mx); [done|done| |unfold len in *; lia|done| |].
      + by eapply (ready_slice i _ xs start cnt off cur q b').
      + intros f Hf. apply wp_ret. rewrite Nat.add_0_r. apply HN; [|done]. split; [done|]. by exists xs.
      + intros x t' Hst' Hd Hsq Hx. rewrite Hpos in Hx. assert (chunks t0 (xs ++ [x]) t') as Hch' by (eapply chunks_snoc; try done; by left).
        assert ((if (if decide (q = 0%nat) then false else true) : bool then 0 else u32 (Z.of_nat sz - Z.of_nat e)) = 0) as ->. { case_decide as Hq1; [|done]. by rewrite (Hq0 Hq1), Z.sub_diag. }
        change (Z.to_nat 0) with 0%nat. apply wp_bind. cbn [cut]. assert (0 >? max = false) as -> by lia. apply wp_ret. cbn [fst snd]. unfold after_cut. cbn [index buffer_array_count failed]. change (0 =? 0) with true. cbn iota. apply wp_bind, wp_ret, wp_ret.
        
        assert (length (pre (S (i + q))) = length xs * mx + mx)%nat as Hend by lia. apply HS; [destruct Hor as [[-> _]|[-> _]]; lia|]. exists (xs ++ [x]). split_and!; try done. destruct Hor as [(-> & b2 & Hb2 & Hsz2)|[-> Hend']].
        * right. pose proof (lookup_lt_Some _ _ _ Hb2). rewrite u32_id by (unfold len in *; lia). split; [lia|]. exists (S (i + q)), 0%nat, 0%nat, 0%nat. rewrite app_length. cbn [length]. split_and!; try done; try lia; [f_equal; lia|exists b2; split; [done|lia]|].
          pose proof (pre_le t0 l (S (S (i + q)))) as Hle2. rewrite (pre_S t0 l _ _ Hb2), app_length in Hle2. lia.
        * left. split; [lia|]. rewrite pre_all in Hend by lia. assert (length (xs ++ [x]) = n) as Hn; [|split; [done|split; [simpl; rewrite <- Hn, app_length; simpl; lia|]]]. apply full_up; [apply Hst'|]. rewrite app_length. simpl. lia. intros _. rewrite <- Hn, app_length. simpl. lia.
    - (* more than max bytes *)
      apply wp_ret. cbn beta iota. apply wp_bind. eapply (wp_store xs start cnt off (mx - cur) mx); [done|done| |unfold len in *; lia|lia| |].
      + rewrite <- (Nat.add_0_r cnt). eapply (ready_slice i _ xs start cnt off cur 0 b); try done; rewrite ?Nat.add_0_r; [done|fold sz; lia|lia].
      + intros f Hf. apply wp_ret. rewrite Nat.add_0_r. apply HN; [|done]. split; [done|]. by exists xs.
      + intros x t1 Hst1 Hd Hsq Hx. rewrite Hpos in Hx. assert (chunks t0 (xs ++ [x]) t1) as Hch1 by (eapply chunks_snoc; try done; by left).
        rewrite u32_id by (unfold len in *; lia). replace (Z.of_nat sz - Z.of_nat (mx - cur)) with (Z.of_nat (sz - (mx - cur))) by lia. replace (S (length xs)) with (length (xs ++ [x])) by (rewrite app_length; simpl; lia).
        apply wp_bind. eapply wp_mono; [apply (wp_cut i b); try done; [rewrite app_length; simpl; lia|fold sz; lia|lia]|].
        intros r t2 f (xs2 & off2 & rem2 & Hst2 & Hor2 & -> & Hrem2 & Hpos2 & Hcase). fold sz in Hor2. cbn [fst snd]. unfold after_cut. cbn [start_buffer_index start_buffer_offset current_buffer_count current_buffer_size index buffer_array_count failed].
        assert (Z.of_nat rem2 =? 0 = false) as -> by lia. rewrite u32_id by (unfold len in *; lia). replace (Z.of_nat i =? len l - 1) with (bool_decide (S i = length l)) by (unfold len; case_bool_decide; lia).
        assert (length xs2 < n)%nat as Hx2 by (apply Hn2; lia). case_bool_decide as Hlast.
        * pose proof (pre_all t0 l (S i) ltac:(lia)) as Hall. apply (f_equal length) in Hall. apply wp_bind, wp_bind. eapply (wp_store xs2 i 0 off2 rem2 rem2); [done|done| |unfold len in *; lia|unfold len in *; lia| |].
          -- exists b. rewrite Nat.add_0_r. split; [done|]. left. fold sz. split_and!; [done|lia|done].
          -- intros f' Hf'. apply wp_ret, wp_ret. rewrite !Nat.add_0_r. apply HN; [|lia]. split; [done|]. by exists xs2.
          -- intros y t3 Hst3 Hd3 Hs3 Hy. rewrite Hpos2 in Hy. apply wp_ret, wp_ret. rewrite !Nat.add_0_r. destruct (decide (mx < rem2)%nat) as [Hbig|Hsmall].
             ++ rewrite bool_decide_true by done. apply HN; [|done]. split; [done|]. exists (xs2 ++ [y]). split; [done|]. simpl. rewrite app_length. simpl. lia.
             ++ rewrite bool_decide_false by done. destruct Hcase as [-> Hch2]. apply HS; [lia|]. exists (xs2 ++ [y]). split_and!; try done.
                ** eapply chunks_snoc; try done. right. lia.
                ** left. split; [lia|]. assert (length (xs2 ++ [y]) = n) as Hn; [|split; [done|split; [simpl; rewrite <- Hn, app_length; simpl; lia|]]]. apply full_up; [apply Hst3|]. rewrite app_length. simpl. lia. lia.
        * apply wp_bind, wp_ret, wp_ret. rewrite !Nat.add_0_r. destruct (decide (mx < rem2)%nat) as [Hbig|Hsmall].
          -- rewrite bool_decide_true by done. apply HN; [|done]. split; [done|]. by exists xs2.
          -- rewrite bool_decide_false by done. destruct Hcase as [-> Hch2]. apply HS; [lia|]. exists xs2. split_and!; try done. right. split; [lia|]. exists i, 1%nat, off2, rem2. split_and!; try done; try lia. exists b. split; [done|fold sz; lia].
  Qed.
  End base.

  Lemma stored_in b t0 xs t : stored t0 xs t -> stored (get_buf b t0) xs (get_buf b t).
  Proof. intros ((K1 & K2 & K3 & K4) & Hm & Hn). split_and!; try done. split_and!; try done. simpl. intros y. unfold upd. case_decide; [subst|]; by rewrite ?K3. Qed.
  Lemma stored_out b t0 xs t : stored (get_buf b t0) xs t -> stored t0 xs (put_buf b t).
  Proof. intros ((K1 & K2 & K3 & K4) & Hm & Hn). split_and!; try done. split_and!; try done. simpl in *. intros y. unfold upd in *. case_decide; subst; rewrite K3; case_decide; done || lia. Qed.

  Lemma wp_arrays_loop t0 : held t0 a l -> Forall (fun b => is_Some (data t0 !! b) /\ size_of t0 b <= UINT32_MAX) l -> mem t0 !! k = None ->
    0 < max <= UINT32_MAX -> len (all_of_them t0 l) <= UINT32_MAX -> len l <= UINT32_MAX -> (len l < UINT32_MAX \/ length (all_of_them t0 l) <> (n * mx)%nat) ->
    (length (all_of_them t0 l) <= n * mx)%nat -> (forall j, (j * mx < length (all_of_them t0 l))%nat -> (j < n)%nat) -> (n * mx < length (all_of_them t0 l) + mx)%nat ->
    forall fuel i v xs t, stored t0 xs t -> chunks t0 xs t -> failed v = false -> (length l + 2 <= fuel + i)%nat ->
    ((length l <= i <= S (length l) /\ length xs = n /\ buffer_array_count v = n)%nat \/ ((i < length l)%nat /\ ready t0 i v xs)) ->
    wp (arrays_loop fuel (Some a) k (len l) max (Z.of_nat i) v) (fun v' t' f => (f = 0%nat /\ failed v' = false /\ exists xs', stored t0 xs' t' /\ chunks t0 xs' t' /\ length xs' = n /\ buffer_array_count v' = n) \/ ((0 < f)%nat /\ bad t0 v' t')) t.
  Proof.
    intros Hh Hknown Hk Hmx Hfit Hmax Hnot Hn1 Hn2 Hn3. induction fuel as [|fuel IH]; intros i v xs t Hst Hch Hv Hf Hor; cbn [arrays_loop].
    - lia.
    - destruct (Z.of_nat i <? len l) eqn:El.
      2:{ apply wp_ret. left. split_and!; [done|done|]. exists xs. destruct Hor as [(? & ? & ?)|[? _]]; [done|unfold len in El; lia]. }
      destruct Hor as [[? _]|[Hil Hr]]; [unfold len in El; lia|]. destruct (lookup_lt_is_Some_2 l i) as [b Hb]; [done|].
      apply wp_bind. eapply (wp_get a l); [eapply kept_held; [apply Hh|apply Hst]|lia|by rewrite Nat2Z.id|]. cbn iota. apply wp_bind. apply wp_buffer_content; [simpl; rewrite upd_same; lia|].
      assert (bytes_of (get_buf b t) b = bytes_of t0 b) as ->. { eapply (kept_bytes t0 l Hknown t b); [apply Hst|]. by eapply elem_of_list_lookup_2. }
      change (size (bytes_of t0 b)) with (size_of t0 b). apply wp_bind. set (t0' := get_buf b t0).
      assert (stored t0' xs (get_buf b t)) as Hst' by (by apply stored_in). assert (chunks t0' xs (get_buf b t)) as Hch' by done. assert (ready t0' i v xs) as Hr' by done.
      assert (held t0' a l) as Hh' by done. assert (Forall (fun b => is_Some (data t0' !! b) /\ size_of t0' b <= UINT32_MAX) l) as Hk' by done.
      assert (forall i' v' t', (i <= i')%nat -> good t0' i' v' t' -> wp (CONSTBUFFER_DecRef b ;;; (if failed v' then ret v' else arrays_loop fuel (Some a) k (len l) max (u32 (Z.of_nat i' + 1)) v'))%cm
        (fun v' t' f => (f = 0%nat /\ failed v' = false /\ exists xs', stored t0 xs' t' /\ chunks t0 xs' t' /\ length xs' = n /\ buffer_array_count v' = n) \/ ((0 < f)%nat /\ bad t0 v' t')) t') as HG.
      { intros i' v' t' Hii (xs' & Hv' & Hs' & Hc' & Hcase). apply wp_bind. apply wp_dec; [destruct Hs' as ((_ & _ & K3 & _) & _); rewrite K3; simpl; rewrite upd_same; lia|].
        rewrite Hv'. rewrite u32_id by (unfold len in *; destruct Hcase as [(? & ? & ? & Hend)|[? ?]]; [destruct (decide (i' = length l)) as [Hi'|]; [specialize (Hend Hi'); destruct Hnot; [lia|done]|lia]|lia]). replace (Z.of_nat i' + 1) with (Z.of_nat (S i')) by lia. simpl Nat.add. eapply wp_mono; [eapply (IH (S i') v' xs'); [by apply stored_out|done|done|lia|]|].
        - destruct Hcase as [(? & ? & ? & _)|[? ?]]; [left; split_and!; done || lia|by right].
        - intros x t'' f H. rewrite ?Nat.add_0_l. exact H. }
      assert (forall i' v' t' f, bad t0' v' t' -> (0 < f)%nat -> wp (CONSTBUFFER_DecRef b ;;; (if failed v' then ret v' else arrays_loop fuel (Some a) k (len l) max (u32 (i' + 1)) v'))%cm
        (fun v' t' f' => ((f + f')%nat = 0%nat /\ failed v' = false /\ exists xs', stored t0 xs' t' /\ chunks t0 xs' t' /\ length xs' = n /\ buffer_array_count v' = n) \/ ((0 < f + f')%nat /\ bad t0 v' t')) t') as HB.
      { intros i' v' t' f (Hv' & xs' & Hs' & Hc') Hf'. apply wp_bind. apply wp_dec; [destruct Hs' as ((_ & _ & K3 & _) & _); rewrite K3; simpl; rewrite upd_same; lia|].
        rewrite Hv'. apply wp_ret. right. split; [lia|]. split; [done|]. exists xs'. split; [by apply stored_out|done]. }
      pose proof Hr as (start & cnt & off & cur & Hvv & _ & _ & _ & _ & Hcur & Hcm & _). pose proof (pre_le t0 l (S i)) as Hle. rewrite (pre_S t0 l _ _ Hb), app_length in Hle.
      rewrite u32_id by (rewrite Hvv; simpl; unfold size_of, len in *; lia). destruct (current_buffer_size v + size_of t0 b <? max) eqn:Ec.
      + apply wp_bind. eapply (wp_fits t0' Hh' Hk'); try done; [change (size_of t0' b) with (size_of t0 b); lia| |].
        * intros v' t' Hg. apply wp_ret. cbn [fst snd]. eapply wp_mono; [apply HG; [|exact Hg]; lia|]. done.
        * intros v' t' f Hg Hf'. apply wp_ret. cbn [fst snd]. rewrite Nat.add_0_r. by apply HB.
      + eapply (wp_fills t0' Hh' Hk'); try done. change (size_of t0' b) with (size_of t0 b); lia.
  Qed.
End arrays.

Lemma wp_inc_array a l (Q : post unit) t : held t a l -> Q tt (get_arr a t) 0%nat -> wp (constbuffer_array_inc_ref (Some a)) Q t.
Proof. intros Hh HQ s HR. destruct (inc_ok t s a l HR Hh) as (s' & E & HR' & Hf & _). exists tt, s', (get_arr a t), 0%nat. split_and!; [done|done|lia|done]. Qed.
Lemma pieces_one max (whole : bytes) : 0 < len whole <= max -> pieces max whole [whole].
Proof. intros H. split; [simpl; by rewrite app_nil_r|]. intros [|j] p Hp; [injection Hp as <-; split; [done|simpl; lia]|by destruct j]. Qed.

Lemma wp_split_arrays a max out t :
  is_u32 max -> match a with None => True | Some x => exists l, held t x l /\ (len l < UINT32_MAX \/ total t l <= max \/ total t l mod max <> 0) end ->
  wp (constbuffer_array_splitter_split_to_array_of_array a max out) (fun r t' f =>
    match r with
    | None => (a = None \/ out = false \/ max = 0 \/ of_array t a (fun l => UINT32_MAX < total t l \/ max < total t l /\ UINT32_MAX < total t l + max - 1) \/ (0 < f)%nat) /\ unchanged t t'
    | Some (k, n) => f = 0%nat /\ out = true /\ max <> 0 /\ of_array t a (fun l => total t l <= UINT32_MAX /\ ~ (max < total t l /\ UINT32_MAX < total t l + max - 1) /\
        exists ps, (pieces max (all_of_them t l) ps /\ ps <> [] \/ all_of_them t l = [] /\ ps = [[]]) /\ n = len ps /\ cut_in t ps k t')
    end) t.
Proof.
  intros [Hm0 Hm1] Ha. unfold constbuffer_array_splitter_split_to_array_of_array. destruct a as [a|]; [|apply wp_ret; split; [by left|apply unchanged_refl]].
  destruct out; [|apply wp_ret; split; [right; by left|apply unchanged_refl]].
  destruct Ha as (l & Hh & Hnot). apply (wp_len a l); [done|]. intros Hmax. pose proof (fun P => of_array_held t (Some a) a l P Hh eq_refl) as Hof.
  destruct (max =? 0) eqn:E0; [apply wp_ret; split; [right; right; left; lia|apply unchanged_refl]|].
  apply (wp_known a l); [done|]. intros Hknown. apply wp_bind. eapply wp_count; [done|]. apply wp_bind. eapply wp_size; [done| |].
  2:{ intros Hbig. apply wp_ret. split; [right; right; right; left; apply Hof; by left|apply unchanged_refl]. }
  intros Hfit. cbn iota. pose proof (total_len t l) as Htl. rewrite Htl in *. set (whole := all_of_them t l) in *. pose proof (len_nonneg whole) as Hwn.
  assert ((len l =? 0) || (len whole =? 0) = (len whole =? 0)) as ->. { destruct (len l =? 0) eqn:El; [|done]. assert (l = []) as Hl by (destruct l; [done|unfold len in El; simpl in El; lia]). unfold whole. rewrite Hl. done. }
  assert (forall f, (0 < f)%nat -> (Some a = None \/ true = false \/ max = 0 \/ of_array t (Some a) (fun l => UINT32_MAX < total t l \/ max < total t l /\ UINT32_MAX < total t l + max - 1) \/ (0 < f)%nat) /\ unchanged t t) as HNo.
  { intros f Hf. split; [by right; right; right; right|apply unchanged_refl]. }
  destruct (len whole =? 0) eqn:Ez.
  { assert (whole = []) as Hw by (destruct whole; [done|unfold len in Ez; simpl in Ez; lia]). apply wp_bind. change (tarray_create 1) with (new_block 1). apply wp_block; [apply wp_ret, HNo; lia|]. intros k Hk.
    apply wp_bind. apply wp_empty.
    - apply wp_bind. eapply (wp_free k [None]); [simpl; by rewrite lookup_insert|]. apply wp_ret. simpl. split; [right; right; right; right; lia|]. split_and!; try done; simpl; [by rewrite delete_insert|intros; lia|intros; lia].
    - intros e t' Hg. destruct (gives_unchanged _ _ _ _ Hg) as (F1 & F2 & F3 & F4 & F5 & F6). simpl in *. apply wp_bind. eapply (wp_write k [None] 0); [by rewrite F4, lookup_insert|done|rewrite F6, upd_same; lia|]. apply wp_ret.
      cbn [moved_out]. simpl. split_and!; [done|done|lia|]. apply Hof. rewrite Htl. split_and!; [done|lia|]. exists [[]]. split_and!; [by right|done|]. split_and!; simpl; [by rewrite F1|done|by rewrite F5| |].
      + intros y. rewrite F6. unfold upd. repeat case_decide; subst; done.
      + exists [e]. split_and!; [done|by rewrite F4, insert_insert|]. constructor; [|constructor]. exists []. split_and!; [done|constructor|done]. }
  destruct (len whole <=? max) eqn:Em.
  { apply wp_bind. change (tarray_create 1) with (new_block 1). apply wp_block; [apply wp_ret, HNo; lia|]. intros k Hk. apply wp_bind. eapply (wp_inc_array a l); [done|].
    apply wp_bind. eapply (wp_write k [None] 0); [simpl; by rewrite lookup_insert|done|simpl; rewrite upd_same; lia|]. apply wp_ret. cbn [moved_out]. simpl. split_and!; [done|done|lia|]. apply Hof. rewrite Htl. split_and!; [done|lia|].
    exists [whole]. split_and!; [left; split; [apply pieces_one; lia|done]|done|]. split_and!; simpl; try done.
    - intros y. unfold upd. repeat case_decide; subst; try done; lia.
    - exists [a]. split_and!; [done|by rewrite insert_insert|]. constructor; [|constructor]. exists l. split_and!; [apply Hh| |done]. eapply Forall_impl; [exact Hknown|]. by intros b [? _]. }
  destruct (decide (UINT32_MAX < len whole + max - 1)) as [Hwrap|Hw].
  { assert (u32 (len whole + max - 1) / max = 0) as ->. { assert (u32 (len whole + max - 1) = len whole + max - 1 - 4294967296) as ->; [|apply Z.div_small; change UINT32_MAX with 4294967295 in *; lia]. unfold u32. change UINT32_MOD with 4294967296. symmetry. apply (Z.mod_unique _ _ 1); [left|]; change UINT32_MAX with 4294967295 in *; lia. }
    apply wp_bind. change (tarray_create 0) with (@ret heap _ (@None nat)). apply wp_ret, wp_ret. split; [right; right; right; left; apply Hof; rewrite Htl; right; lia|apply unchanged_refl]. }
  destruct (split_count (len whole) max ltac:(lia) ltac:(lia) ltac:(lia)) as (Hnz & Hn1 & Hn3). set (n := Z.to_nat (u32 (len whole + max - 1) / max)) in *.
  replace (Z.to_nat (len whole)) with (length whole) in Hn1, Hn3 by (unfold len; lia).
  assert (forall j, (j * Z.to_nat max < length whole)%nat -> (j < n)%nat) as Hn2. { intros j Hj. destruct (decide (j < n)%nat); [done|]. assert (n * Z.to_nat max <= j * Z.to_nat max)%nat by (apply Nat.mul_le_mono_r; lia). lia. }
  assert (len l < UINT32_MAX \/ length whole <> (n * Z.to_nat max)%nat) as Hnot'.
  { destruct Hnot as [?|[?|Hnot]]; [by left|lia|]. right. intros He. apply Hnot. assert (len whole = Z.of_nat n * max) as -> by (unfold len; lia). apply Z.mod_mul. lia. }
  assert (0 < n)%nat as Hn0 by (apply Hn2; unfold len in *; lia).
  apply wp_bind. unfold tarray_create. assert (u32 (len whole + max - 1) / max =? 0 = false) as -> by lia. fold n. apply wp_block; [apply wp_ret, HNo; lia|]. intros k Hk. rewrite len_nat.
  destruct (lookup_lt_is_Some_2 l 0) as [b0 Hb0]. { destruct l; [by unfold whole, len in Ez|simpl; lia]. }
  apply wp_bind. eapply wp_mono.
  { apply (wp_arrays_loop a l max n k t Hh Hknown Hk ltac:(lia) Hfit Hmax Hnot' Hn1 Hn2 Hn3 (S (S (length l))) 0 (Vars 0 0 0 0 0 0 false) []); [|by intros ? ? ?|done|lia|].
    - split_and!; [by split_and!|simpl; by rewrite Nat.sub_0_r|simpl; lia].
    - right. apply lookup_lt_Some in Hb0 as Hl0. split; [done|]. exists 0%nat, 0%nat, 0%nat, 0%nat. split_and!; try done; [exists b0; split; [done|lia]|simpl; lia|]. simpl. fold whole. unfold len in *. lia. }
  intros v t' f [(-> & Hv & xs & ((K1 & K2 & K3 & K4) & Hm & _) & Hch & Hxn & Hbn)|(Hf & Hv & xs & ((K1 & K2 & K3 & K4) & Hm & _) & Hbn)]; rewrite Hv.
  - apply wp_ret. split_and!; [done|done|lia|]. apply Hof. rewrite Htl. split_and!; [done|lia|]. exists (map (fun j => take (Z.to_nat max) (drop (j * Z.to_nat max) whole)) (seq 0 n)). split_and!.
    + left. split; [apply chunks_pieces; [lia|done|done]|]. destruct n; [lia|done].
    + unfold len. rewrite map_length, seq_length. lia.
    + split_and!; try done. exists xs. split_and!; [done|rewrite Hm, Hxn, Nat.sub_diag; f_equal; apply app_nil_r|]. change (map ?f ?l) with (f <$> l). apply Forall2_fmap_r.
      apply Forall2_same_length_lookup_2; [by rewrite seq_length|]. intros i x j Hx Hj. apply lookup_seq in Hj as [-> _]. simpl. by apply Hch.
  - rewrite Hbn. apply wp_assoc, wp_bind. eapply (wp_release_arrays k xs); [rewrite Hm, lookup_insert; reflexivity|]. intros t2 (G1 & G2 & G3 & G4 & G5). simpl in *. apply wp_ret. split; [right; right; right; right; lia|].
    split_and!; [by rewrite G1|by rewrite G2|rewrite G3, Hm; by rewrite delete_insert|intros; by rewrite G4|intros; by rewrite G5].
Qed.
