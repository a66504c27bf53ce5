From Verif Require Import Common Block BlockFacts CMem CMemFacts BufferModel BufferSpec.
Local Open Scope cmonad_scope.

(** A BUFFER struct and its block stand for these contents. *)
Definition buf_ok (o : BUFFER) (c : content) (b : option block) : Prop :=
  match c, buffer o, b with
  | None, None, _ => size o = 0
  | Some l, Some _, Some blk => size o = length l /\ (exists k, blk = l ++ fresh_block k) /\ fits (length l)
  | _, _, _ => False
  end.
Notation brep := (rep buffer buf_ok).

Definition post (o : op) (s : st BUFFER) (a : buffers) (r : res) (s' : st BUFFER) : Prop :=
  exists a', brep s' a' /\ (effect o a r a' \/ (fails s < fails s' /\ failure o = Some r /\ a' = a)).

(** Cases for a live handle. *)
Lemma get_buf s a h c : brep s a -> a !! h = Some c ->
  match c with
  | None => objs s !! h = Some (Buffer None 0)
  | Some l => exists p k, objs s !! h = Some (Buffer (Some p) (length l)) /\ mem s !! p = Some (l ++ fresh_block k) /\ fits (length l)
  end.
Proof.
  intros R H. destruct (rep_get _ _ _ _ _ _ R H) as ([p n]&Ho&[Hok Hp]). unfold buf_ok in Hok. simpl in *.
  destruct c as [l|], p as [p|]; simpl in *; try done.
  - destruct (mem s !! p) as [blk|] eqn:E; [|done]. destruct Hok as (->&[k ->]&?). exists p, k. done.
  - subst. done.
Qed.
Lemma owned_of (s : st BUFFER) h b : objs s !! h = Some b -> owned buffer s h (buffer b).
Proof. intros H. unfold owned. by rewrite H. Qed.
Lemma owned_new (s : st BUFFER) h : objs s !! h = None -> owned buffer s h None.
Proof. intros H. unfold owned. by rewrite H. Qed.
Lemma st_eta {O} (s : st O) : St (mem s) (objs s) (oracle s) (fails s) = s.
Proof. by destruct s. Qed.
Lemma same s a h c o f : brep s a -> a !! h = Some c -> brep (St (mem s) (objs s) o f) (<[h := c]> a).
Proof. intros R H. rewrite insert_id by done. by apply rep_oracle. Qed.

Ltac fin_fail := eexists; split; [apply rep_oracle; eassumption|]; first [right; simpl; split_and!; (lia || done) | left; done ].
Ltac simp_st := cbn [mem objs oracle fails].

Lemma safemalloc_ok h n s o0 (Q : Z -> st BUFFER -> Prop) : objs s !! h = Some o0 ->
  (forall p o, mem s !! p = None -> Q 0%Z (St (<[p := fresh_block (if decide (n = 0) then 1 else n)]> (mem s)) (<[h := Buffer (Some p) n]> (objs s)) o (fails s))) ->
  (forall o, Q 1%Z (St (mem s) (<[h := Buffer None (size o0)]> (objs s)) o (S (fails s)))) -> wp (BUFFER_safemalloc h n) s Q.
Proof.
  intros Ho H1 H2. unfold BUFFER_safemalloc. apply wp_bind, wp_malloc; [intros p o Hp|intros o];
    apply wp_bind; (eapply wp_get_obj; [simp_st; done|]); apply wp_bind; (eapply wp_set_obj; [simp_st; done|]); apply wp_ret; first [by apply H1 | by apply H2].
Qed.

Lemma buf_ok_bytes p src n m : n <= length src -> fits n ->
  buf_ok (Buffer (Some p) n) (Some (Some <$> take n src)) (Some (take 0 (fresh_block m) ++ bytes_block (take n src) ++ drop (0 + n) (fresh_block m))).
Proof.
  intros H Hf. unfold buf_ok. cbn [buffer size]. rewrite fmap_length, take_length_le by done. split; [done|]. split; [|done].
  exists (m - n). unfold fresh_block. by rewrite drop_replicate.
Qed.
Lemma buf_ok_fresh p n : fits n -> buf_ok (Buffer (Some p) n) (Some (replicate n None)) (Some (fresh_block n)).
Proof. intros. unfold buf_ok. cbn [buffer size]. rewrite replicate_length. split; [done|]. split; [|done]. exists 0. by rewrite app_nil_r. Qed.
Lemma fresh_not_in s a (h : positive) : brep s a -> objs s !! h = None -> a !! h = None.
Proof. intros R H. by apply (rep_not_obj _ _ _ _ _ R). Qed.

Lemma run_new s a : brep s a -> wp (run New) s (post New s a).
Proof.
  intros R. apply wp_bind, wp_new_obj; [intros p o Hp|intros o]; apply wp_ret.
  - exists (<[p := None]> a). split; [|left; exists p; eauto using fresh_not_in].
    apply (rep_drop _ _ s a p None); try done. by apply owned_new.
  - fin_fail.
Qed.
Lemma run_create src n s a : brep s a -> source_ok src n -> fits n -> wp (run (Create src n)) s (post (Create src n) s a).
Proof.
  intros R Hs Hf. simpl. unfold BUFFER_create. apply wp_bind. destruct src as [src|].
  2:{ apply wp_ret. apply wp_ret. exists a. split; [done|]. by left. }
  simpl in Hs. apply wp_bind, wp_new_obj; [intros h o Hh|intros o; do 2 apply wp_ret; fin_fail].
  apply wp_bind. eapply safemalloc_ok; [simp_st; by rewrite lookup_insert|simp_st..]; [intros p o' Hp|intros o'].
  - rewrite decide_False by lia. apply wp_bind. eapply wp_get_obj; [simp_st; by rewrite lookup_insert|]. apply wp_bind. simpl buffer.
    eapply wp_memcpy_from; [simp_st; by rewrite lookup_insert|done|unfold fresh_block; rewrite replicate_length; case_decide; lia|].
    do 2 apply wp_ret. simp_st. rewrite !insert_insert. eexists. split; [|left; exists h; split; [by eapply fresh_not_in|done]].
    apply (rep_replace _ _ s a h None); try done; [by apply owned_new|].
    by apply buf_ok_bytes.
  - rewrite decide_True by done. apply wp_bind. eapply wp_free_obj; [simp_st; by rewrite lookup_insert|]. do 2 apply wp_ret. simp_st.
    rewrite insert_insert, delete_insert by done. fin_fail.
Qed.
Lemma run_create_with_size n s a : brep s a -> fits n -> wp (run (CreateWithSize n)) s (post (CreateWithSize n) s a).
Proof.
  intros R Hf. simpl. unfold BUFFER_create_with_size. apply wp_bind.
  apply wp_bind, wp_new_obj; [intros h o Hh|intros o; do 2 apply wp_ret; fin_fail].
  case_decide as Hn.
  - apply wp_bind. eapply wp_set_obj; [simp_st; by rewrite lookup_insert|]. do 2 apply wp_ret. simp_st. rewrite insert_insert.
    subst n. exists (<[h := None]> a). split; [|left; exists h; eauto using fresh_not_in].
    apply (rep_drop _ _ s a h None); try done. by apply owned_new.
  - apply wp_bind. apply wp_malloc; [intros p o' Hp|intros o']; apply wp_bind; (eapply wp_set_obj; [simp_st; by rewrite lookup_insert|]); simp_st; rewrite insert_insert.
    + do 2 apply wp_ret. exists (<[h := Some (replicate n None)]> a). split; [|left; destruct n; [done|]; exists h; eauto using fresh_not_in].
      apply (rep_replace _ _ s a h None); try done; [by apply owned_new|]. by apply buf_ok_fresh.
    + apply wp_bind. eapply wp_free_obj; [simp_st; by rewrite lookup_insert|]. do 2 apply wp_ret. simp_st.
      rewrite delete_insert by done. fin_fail.
Qed.

Ltac null_case := apply wp_bind; apply wp_ret; apply wp_ret; eexists; split; [eassumption|left; done].

Lemma run_delete h s a : brep s a -> live a h -> wp (run (Delete h)) s (post (Delete h) s a).
Proof.
  intros R Hl. simpl. unfold BUFFER_delete. destruct h as [h|]; [|null_case].
  destruct Hl as [c Hc]. pose proof (get_buf _ _ _ _ R Hc) as G. destruct c as [l|].
  - destruct G as (p&k&Ho&Hm&_). apply wp_bind, wp_bind. eapply wp_get_obj; [done|]. simpl buffer. apply wp_bind. eapply wp_free; [done|].
    eapply wp_free_obj; [simp_st; done|]. apply wp_ret. simp_st. exists (delete h a). split; [|by left].
    apply (rep_free _ _ s a h (Some p)); [done|]. by apply (owned_of s h (Buffer (Some p) (length l))).
  - apply wp_bind, wp_bind. eapply wp_get_obj; [done|]. simpl buffer. apply wp_bind, wp_ret.
    eapply wp_free_obj; [simp_st; done|]. apply wp_ret. simp_st. exists (delete h a). split; [|by left].
    apply (rep_free _ _ s a h None); [done|]. by apply (owned_of s h (Buffer None 0)).
Qed.
Lemma wp_free_buf s a h c b (Q : unit -> st BUFFER -> Prop) : brep s a -> a !! h = Some c -> objs s !! h = Some b ->
  Q tt (St (del_opt (buffer b) (mem s)) (objs s) (oracle s) (fails s)) -> wp (free (buffer b)) s Q.
Proof.
  intros R Hc Ho HQ. pose proof (get_buf _ _ _ _ R Hc) as G. destruct c as [l|].
  - destruct G as (p&k&Ho'&Hm&_). rewrite Ho in Ho'. simplify_eq. simpl. eapply wp_free; done.
  - rewrite Ho in G. simplify_eq. simpl. apply wp_free_null. simpl in HQ. by rewrite st_eta in HQ.
Qed.
Lemma rep_unbuilt s a h b orc f : brep s a -> objs s !! h = Some b ->
  brep (St (del_opt (buffer b) (mem s)) (<[h := Buffer None 0]> (objs s)) orc f) (<[h := None]> a).
Proof. intros R Ho. apply rep_drop; try done. by apply owned_of. Qed.
Lemma live_obj s a h : brep s a -> is_Some (a !! h) -> exists c b, a !! h = Some c /\ objs s !! h = Some b.
Proof. intros R [c Hc]. destruct (rep_get _ _ _ _ _ _ R Hc) as (b&?&_). eauto. Qed.

Lemma run_build h src n s a : brep s a -> live a h -> source_ok src n -> fits n -> wp (run (Build h src n)) s (post (Build h src n) s a).
Proof.
  intros R Hl Hs Hf. simpl. unfold BUFFER_build. destruct h as [h|]; [|null_case].
  destruct (live_obj _ _ _ R Hl) as (c&b&Hc&Ho). case_decide as Hn.
  - subst n. apply wp_bind, wp_bind. eapply wp_get_obj; [done|]. apply wp_bind. eapply wp_free_buf; [done..|].
    apply wp_bind. eapply wp_set_obj; [simp_st; done|]. do 2 apply wp_ret. simp_st. exists (<[h := None]> a). split; [by apply rep_unbuilt|].
    left. simpl. exists c. split; done.
  - destruct n as [|n]; [done|]. destruct src as [src|].
    2:{ apply wp_bind, wp_ret, wp_ret. exists a. split; [done|]. left. simpl. by exists c. }
    simpl in Hs. apply wp_bind, wp_bind. eapply wp_get_obj; [done|]. apply wp_bind.
    assert (Hend : forall p blk orc f, mem s !! p = None -> length blk = S n ->
      brep (St (<[p := take 0 blk ++ bytes_block (take (S n) src) ++ drop (0 + S n) blk]> (del_opt (buffer b) (mem s))) (<[h := Buffer (Some p) (S n)]> (objs s)) orc f)
        (<[h := Some (Some <$> take (S n) src)]> a)).
    { intros p blk orc f Hp Hblk. apply (rep_replace _ _ s a h (buffer b)); try done; [by apply owned_of|].
      rewrite (drop_ge blk) by lia. pose proof (buf_ok_bytes p src (S n) 0 Hs Hf) as H. unfold fresh_block in H. rewrite (drop_ge (replicate _ _)) in H by (simpl; lia). done. }
    destruct b as [[p0|] sz]; cbn [buffer] in *.
    + pose proof (get_buf _ _ _ _ R Hc) as G. destruct c as [l|]; [|simplify_eq]. destruct G as (p&k&Ho'&Hm&_). simplify_eq.
      eapply wp_realloc; [done|intros q o Hne Hq|intros o; do 2 apply wp_ret; fin_fail].
      apply wp_bind. eapply wp_set_obj; [simp_st; done|]. apply wp_bind. set (blk := l ++ fresh_block k).
      assert (length (take (S n) blk ++ fresh_block (S n - length blk)) = S n) as Hlen.
      { unfold fresh_block. rewrite app_length, take_length, replicate_length. lia. }
      eapply wp_memcpy_from; [simp_st; by rewrite lookup_insert|done|by rewrite Hlen|].
      do 2 apply wp_ret. simp_st. rewrite insert_insert. eexists. split; [by apply Hend|]. left. simpl. exists (Some l). split; done.
    + apply wp_realloc_null. apply wp_malloc; [intros q o Hq|intros o; do 2 apply wp_ret; fin_fail].
      apply wp_bind. eapply wp_set_obj; [simp_st; done|]. apply wp_bind.
      assert (length (fresh_block (S n)) = S n) as Hlen by (unfold fresh_block; by rewrite replicate_length).
      eapply wp_memcpy_from; [simp_st; by rewrite lookup_insert|done|by rewrite Hlen|].
      do 2 apply wp_ret. simp_st. rewrite insert_insert. eexists. split; [by apply Hend|]. left. simpl. exists c. split; done.
Qed.

(** What realloc leaves in a block that is grown by n. *)
Lemma take_grow (l : block) k n : exists j,
  take (length l + n) (l ++ fresh_block k) ++ fresh_block (length l + n - length (l ++ fresh_block k)) = l ++ fresh_block j /\ j = n.
Proof.
  exists n. split; [|done]. rewrite take_app_ge by lia. rewrite <-app_assoc. f_equal. unfold fresh_block.
  rewrite take_replicate, app_length, replicate_length, <-replicate_add. f_equal. lia.
Qed.
Lemma run_append_build h src n s a : brep s a -> live a h -> source_ok src n -> fits n -> wp (run (AppendBuild h src n)) s (post (AppendBuild h src n) s a).
Proof.
  intros R Hl Hs Hf. simpl. unfold BUFFER_append_build. destruct h as [h|]; [|null_case].
  destruct Hl as [c Hc]. destruct src as [src|].
  2:{ apply wp_bind, wp_ret, wp_ret. exists a. split; [done|]. left. simpl. exists c. split; [done|]. by destruct n. }
  simpl in Hs. case_decide as Hn.
  { subst n. apply wp_bind, wp_ret, wp_ret. exists a. split; [done|]. left. simpl. by exists c. }
  destruct n as [|n]; [done|].
  pose proof (get_buf _ _ _ _ R Hc) as G. apply wp_bind, wp_bind. destruct c as [l|].
  - destruct G as (p&k&Ho&Hm&Hfl). eapply wp_get_obj; [done|]. cbn [buffer size]. apply wp_bind.
    unfold realloc_flex. rewrite flex_1. unfold fits in *. case_decide as Hfit.
    2:{ do 3 apply wp_ret. exists a. split; [done|]. left. simpl. exists (Some l). split; [done|]. rewrite decide_False; [done|]. exact Hfit. }
    destruct (take_grow l k (S n)) as (tl&Htl&->).
    eapply wp_realloc; [done|intros q o Hne Hq|intros o; do 2 apply wp_ret; fin_fail].
    apply wp_bind. eapply wp_set_obj; [simp_st; done|]. apply wp_bind. rewrite Htl.
    eapply wp_memcpy_from; [simp_st; by rewrite lookup_insert|done|rewrite app_length; unfold fresh_block; rewrite replicate_length; lia|]. simp_st.
    apply wp_bind. eapply wp_set_obj; [simp_st; by rewrite lookup_insert|]. do 2 apply wp_ret. simp_st. rewrite !insert_insert.
    eexists. split; [|left; simpl; exists (Some l); split; [done|]; rewrite decide_True by exact Hfit; done].
    apply (rep_replace _ _ s a h (Some p)); try done; [by apply (owned_of _ _ (Buffer (Some p) (length l)))|].
    assert (Hb : length (bytes_block (take (S n) src)) = S n) by (unfold bytes_block; rewrite fmap_length, take_length_le by done; done).
    unfold buf_ok. cbn [buffer size the from_option id]. change (Some <$> take (S n) src) with (bytes_block (take (S n) src)).
    rewrite app_length, Hb. split; [done|]. split; [|exact Hfit].
    rewrite take_app_alt by done. exists 0. rewrite <-app_assoc. do 2 f_equal. apply drop_ge. rewrite app_length. unfold fresh_block. rewrite replicate_length. lia.
  - eapply wp_get_obj; [done|]. cbn [buffer size]. apply wp_bind.
    eapply safemalloc_ok; [done|intros p o Hp|intros o].
    + rewrite decide_False by lia. apply wp_bind. eapply wp_get_obj; [simp_st; by rewrite lookup_insert|]. cbn [buffer]. apply wp_bind.
      eapply wp_memcpy_from; [simp_st; by rewrite lookup_insert|done|unfold fresh_block; rewrite replicate_length; case_decide; lia|].
      do 2 apply wp_ret. simp_st. rewrite insert_insert.
      eexists. split; [|left; simpl; exists None; split; [done|]; rewrite decide_True by exact Hf; done].
      apply (rep_replace _ _ s a h None); try done; [by apply (owned_of _ _ (Buffer None 0))|].
      by apply buf_ok_bytes.
    + rewrite decide_True by done. do 2 apply wp_ret. cbn [size]. rewrite insert_id by done. fin_fail.
Qed.
Lemma run_pre_build h n s a : brep s a -> live a h -> fits n -> wp (run (PreBuild h n)) s (post (PreBuild h n) s a).
Proof.
  intros R Hl Hf. simpl. unfold BUFFER_pre_build. destruct h as [h|]; [|null_case]. destruct Hl as [c Hc].
  case_decide as Hn.
  { subst n. apply wp_bind, wp_ret, wp_ret. exists a. split; [done|]. left. simpl. by exists c. }
  destruct n as [|n]; [done|]. pose proof (get_buf _ _ _ _ R Hc) as G. apply wp_bind, wp_bind. destruct c as [l|].
  - destruct G as (p&k&Ho&_). eapply wp_get_obj; [done|]. cbn [buffer]. do 2 apply wp_ret. exists a. split; [done|]. left. simpl. by exists (Some l).
  - eapply wp_get_obj; [done|]. cbn [buffer size]. apply wp_bind. apply wp_malloc; [intros p o Hp|intros o]; apply wp_bind; (eapply wp_set_obj; [simp_st; done|]); do 2 apply wp_ret; simp_st.
    + eexists. split; [|left; simpl; exists None; split; done].
      apply (rep_replace _ _ s a h None); try done; [by apply (owned_of _ _ (Buffer None 0))|].
      by apply buf_ok_fresh.
    + rewrite insert_id by done. fin_fail.
Qed.
Lemma run_unbuild h s a : brep s a -> live a h -> wp (run (Unbuild h)) s (post (Unbuild h) s a).
Proof.
  intros R Hl. simpl. unfold BUFFER_unbuild. destruct h as [h|]; [|null_case].
  destruct (live_obj _ _ _ R Hl) as (c&b&Hc&Ho). apply wp_bind, wp_bind. eapply wp_get_obj; [done|].
  apply wp_bind. destruct b as [[p|] n]; cbn [buffer].
  - apply wp_bind. eapply (wp_free_buf _ _ _ _ (Buffer (Some p) n)); [done..|]. eapply wp_set_obj; [simp_st; done|]. do 2 apply wp_ret. simp_st.
    eexists. split; [by apply rep_unbuilt|]. left. simpl. exists c. done.
  - do 3 apply wp_ret. pose proof (get_buf _ _ _ _ R Hc) as G. destruct c as [l|]; [destruct G as (?&?&?&_); simplify_eq|].
    exists (<[h := None]> a). split; [by rewrite insert_id|]. left. simpl. by exists None.
Qed.
Lemma run_enlarge h n s a : brep s a -> live a h -> wp (run (Enlarge h n)) s (post (Enlarge h n) s a).
Proof.
  intros R Hl. simpl. unfold BUFFER_enlarge. destruct h as [h|]; [|null_case]. destruct Hl as [c Hc].
  case_decide as Hn.
  { subst n. apply wp_bind, wp_ret, wp_ret. exists a. split; [done|]. left. simpl. exists c. split; [done|]. first [done | by rewrite decide_True by auto]. }
  pose proof (get_buf _ _ _ _ R Hc) as G. apply wp_bind, wp_bind.
  unfold realloc_flex. destruct c as [l|].
  - destruct G as (p&k&Ho&Hm&Hfl). eapply wp_get_obj; [done|]. cbn [buffer size]. apply wp_bind. rewrite flex_1. unfold fits in *. case_decide as Hfit.
    2:{ do 3 apply wp_ret. exists a. split; [done|]. left. simpl. exists (Some l). split; [done|]. rewrite decide_True; [done|]. right. exact Hfit. }
    destruct (take_grow l k n) as (tl&Htl&->).
    eapply wp_realloc; [done|intros q o Hne Hq|intros o; do 2 apply wp_ret; fin_fail].
    apply wp_bind. eapply wp_set_obj; [simp_st; done|]. do 2 apply wp_ret. simp_st. rewrite Htl.
    eexists. split; [|left; simpl; exists (Some l); split; [done|]; rewrite decide_False; [done|intros [?|Hx]; [done|by apply Hx]]].
    apply (rep_replace _ _ s a h (Some p)); try done; [by apply (owned_of _ _ (Buffer (Some p) (length l)))|].
    unfold buf_ok. cbn [buffer size the from_option id]. rewrite app_length, replicate_length. split; [done|]. split; [|done].
    exists 0. unfold fresh_block. by rewrite app_nil_r.
  - eapply wp_get_obj; [done|]. cbn [buffer size]. apply wp_bind. rewrite flex_1. case_decide as Hfit.
    2:{ do 3 apply wp_ret. exists a. split; [done|]. left. simpl. exists None. split; [done|]. rewrite decide_True; [done|]. right. exact Hfit. }
    apply wp_realloc_null. apply wp_malloc; [intros q o Hq|intros o; do 2 apply wp_ret; fin_fail].
    apply wp_bind. eapply wp_set_obj; [simp_st; done|]. do 2 apply wp_ret. simp_st.
    eexists. split; [|left; simpl; exists None; split; [done|]; rewrite decide_False; [done|intros [?|Hx]; [done|by apply Hx]]].
    apply (rep_replace _ _ s a h None); try done; [by apply (owned_of _ _ (Buffer None 0))|]. by apply (buf_ok_fresh q n).
Qed.
Lemma run_shrink h n e s a : brep s a -> live a h -> wp (run (Shrink h n e)) s (post (Shrink h n e) s a).
Proof.
  intros R Hl. simpl. unfold BUFFER_shrink. destruct h as [h|]; [|null_case]. destruct Hl as [c Hc].
  case_decide as Hn.
  { subst n. apply wp_bind, wp_ret, wp_ret. exists a. split; [done|]. left. simpl. exists c. split; [done|]. first [done | by rewrite decide_True by auto]. }
  pose proof (get_buf _ _ _ _ R Hc) as G. apply wp_bind, wp_bind.
  destruct c as [l|].
  2:{ eapply wp_get_obj; [done|]. cbn [buffer size]. rewrite decide_True by lia. do 2 apply wp_ret. exists a. split; [done|]. left. simpl. exists None.
      split; [done|]. rewrite decide_True; [done|]. right. simpl. lia. }
  destruct G as (p&k&Ho&Hm&Hfl). eapply wp_get_obj; [done|]. cbn [buffer size]. case_decide as Hlt.
  { do 2 apply wp_ret. exists a. split; [done|]. left. simpl. exists (Some l). split; [done|]. rewrite decide_True; [done|]. right. done. }
  case_decide as Hz.
  - apply wp_bind. eapply wp_free; [done|]. apply wp_bind. eapply wp_set_obj; [simp_st; done|]. do 2 apply wp_ret. simp_st.
    eexists. split; [by apply (rep_unbuilt s a h (Buffer (Some p) (length l)))|]. left. simpl. exists (Some l). split; [done|].
    rewrite decide_False by (simpl; lia). rewrite decide_True by (simpl; lia). done.
  - apply wp_bind. apply wp_malloc; [intros q o Hq|intros o; do 2 apply wp_ret; fin_fail].
    assert (q <> p) by (intros ->; congruence).
    apply wp_bind. eapply wp_memcpy; [done|simp_st; by rewrite lookup_insert|simp_st; rewrite lookup_insert_ne by done; done|unfold fresh_block; rewrite replicate_length; lia| |].
    { rewrite app_length. unfold fresh_block. rewrite replicate_length. destruct e; lia. }
    simp_st. apply wp_bind. eapply wp_free; [simp_st; rewrite !lookup_insert_ne by done; done|]. simp_st.
    apply wp_bind. eapply wp_set_obj; [simp_st; done|]. do 2 apply wp_ret. simp_st. rewrite insert_insert, delete_insert_ne by done.
    eexists. split; [|left; simpl; exists (Some l); split; [done|]; rewrite !decide_False by (simpl; lia); done].
    apply (rep_replace _ _ s a h (Some p)); try done; [by apply (owned_of _ _ (Buffer (Some p) (length l)))|].
    assert (take (length l - n) (drop (if e then 0 else n) (l ++ fresh_block k)) = if e then take (length l - n) l else drop n l) as ->.
    { destruct e; [rewrite drop_0, take_app_le by lia; done|]. rewrite drop_app_le by lia. rewrite take_app_alt by (rewrite drop_length; lia). done. }
    assert (length (if e then take (length l - n) l else drop n l) = length l - n) as Hlen.
    { destruct e; [rewrite take_length; lia|by rewrite drop_length]. }
    unfold buf_ok. cbn [buffer size the from_option id]. rewrite Hlen. split; [done|]. split; [|unfold fits in *; lia].
    exists 0. rewrite take_0. cbn [app]. f_equal. apply drop_ge. unfold fresh_block. rewrite replicate_length. lia.
Qed.
Lemma run_append h1 h2 s a : brep s a -> live a h1 -> live a h2 -> wp (run (Append h1 h2)) s (post (Append h1 h2) s a).
Proof.
  intros R Hl1 Hl2. simpl. unfold BUFFER_append. destruct h1 as [h1|]; [|null_case]. destruct Hl1 as [c1 Hc1].
  destruct h2 as [h2|]; [|apply wp_bind, wp_ret, wp_ret; exists a; split; [done|]; left; simpl; by exists c1]. destruct Hl2 as [c2 Hc2].
  assert (Hfail : (match c1, c2 with Some l1, Some l2 => h1 = h2 \/ ~ fits (length l1 + length l2) | _, _ => True end) -> effect (Append (Some h1) (Some h2)) a (RInt 1) a).
  { intros H. simpl. exists c1. split; [done|]. exists c2. split; [done|]. destruct c1, c2; try done. by rewrite decide_True. }
  case_decide as Hh.
  { apply wp_bind, wp_ret, wp_ret. exists a. split; [done|]. left. apply Hfail. destruct c1, c2; auto. }
  pose proof (get_buf _ _ _ _ R Hc1) as G1. pose proof (get_buf _ _ _ _ R Hc2) as G2.
  apply wp_bind, wp_bind. destruct c1 as [l1|].
  2:{ eapply wp_get_obj; [done|]. destruct (live_obj _ _ h2 R) as (?&b2&?&Ho2); [eauto|]. apply wp_bind. eapply wp_get_obj; [done|]. cbn [buffer].
      do 2 apply wp_ret. exists a. split; [done|]. left. by apply Hfail. }
  destruct G1 as (p1&k1&Ho1&Hm1&Hfl1). eapply wp_get_obj; [done|]. apply wp_bind. destruct c2 as [l2|].
  2:{ eapply wp_get_obj; [done|]. cbn [buffer]. do 2 apply wp_ret. exists a. split; [done|]. left. by apply Hfail. }
  destruct G2 as (p2&k2&Ho2&Hm2&Hfl2). eapply wp_get_obj; [done|]. cbn [buffer size].
  assert (Hsucc : fits (length l1 + length l2) -> effect (Append (Some h1) (Some h2)) a (RInt 0) (<[h1 := Some (l1 ++ l2)]> a)).
  { intros H. simpl. exists (Some l1). split; [done|]. exists (Some l2). split; [done|]. rewrite decide_False; [done|]. intros [?|?]; done. }
  case_decide as Hz.
  { apply nil_length_inv in Hz. subst l2. do 2 apply wp_ret. exists (<[h1 := Some (l1 ++ [])]> a). split; [rewrite app_nil_r; by rewrite insert_id|].
    left. apply Hsucc. simpl. by rewrite Nat.add_0_r. }
  apply wp_bind. unfold realloc_flex. rewrite flex_1. case_decide as Hfit; [|do 3 apply wp_ret; exists a; split; [done|]; left; apply Hfail; by right].
  assert (p1 <> p2) as Hp12.
  { intros ->. apply Hh. by eapply (rep_inj _ _ _ _ R). }
  destruct (take_grow l1 k1 (length l2)) as (tl&Htl&->).
  eapply wp_realloc; [done|intros q o Hne Hq|intros o; do 2 apply wp_ret; fin_fail].
  assert (q <> p2) by (intros ->; congruence).
  apply wp_bind. eapply wp_set_obj; [simp_st; done|]. apply wp_bind. rewrite Htl.
  eapply wp_memcpy; [done|simp_st; by rewrite lookup_insert|simp_st; rewrite lookup_insert_ne, lookup_delete_ne by done; done|rewrite app_length; unfold fresh_block; rewrite replicate_length; lia|rewrite app_length; lia|].
  simp_st. apply wp_bind. eapply wp_set_obj; [simp_st; by rewrite lookup_insert|]. do 2 apply wp_ret. simp_st. rewrite !insert_insert.
  eexists. split; [|left; apply Hsucc; exact Hfit].
  apply (rep_replace _ _ s a h1 (Some p1)); try done; [by apply (owned_of _ _ (Buffer (Some p1) (length l1)))|].
  unfold buf_ok. cbn [buffer size]. rewrite app_length. split; [done|]. split; [|exact Hfit]. exists 0.
  rewrite take_app_alt by done. rewrite drop_0, take_app_alt by done. rewrite drop_ge; [by rewrite !app_nil_r|].
  rewrite app_length. unfold fresh_block. rewrite replicate_length. lia.
Qed.
Lemma run_prepend h1 h2 s a : brep s a -> live a h1 -> live a h2 -> wp (run (Prepend h1 h2)) s (post (Prepend h1 h2) s a).
Proof.
  intros R Hl1 Hl2. simpl. unfold BUFFER_prepend. destruct h1 as [h1|]; [|null_case]. destruct Hl1 as [c1 Hc1].
  destruct h2 as [h2|]; [|apply wp_bind, wp_ret, wp_ret; exists a; split; [done|]; left; simpl; by exists c1]. destruct Hl2 as [c2 Hc2].
  assert (Hfail : (match c1, c2 with Some l1, Some l2 => h1 = h2 \/ ~ fits (length l1 + length l2) | _, _ => True end) -> effect (Prepend (Some h1) (Some h2)) a (RInt 1) a).
  { intros H. simpl. exists c1. split; [done|]. exists c2. split; [done|]. destruct c1, c2; try done. by rewrite decide_True. }
  case_decide as Hh.
  { apply wp_bind, wp_ret, wp_ret. exists a. split; [done|]. left. apply Hfail. destruct c1, c2; auto. }
  pose proof (get_buf _ _ _ _ R Hc1) as G1. pose proof (get_buf _ _ _ _ R Hc2) as G2.
  apply wp_bind, wp_bind. destruct c1 as [l1|].
  2:{ eapply wp_get_obj; [done|]. destruct (live_obj _ _ h2 R) as (?&b2&?&Ho2); [eauto|]. apply wp_bind. eapply wp_get_obj; [done|]. cbn [buffer].
      do 2 apply wp_ret. exists a. split; [done|]. left. by apply Hfail. }
  destruct G1 as (p1&k1&Ho1&Hm1&Hfl1). eapply wp_get_obj; [done|]. apply wp_bind. destruct c2 as [l2|].
  2:{ eapply wp_get_obj; [done|]. cbn [buffer]. do 2 apply wp_ret. exists a. split; [done|]. left. by apply Hfail. }
  destruct G2 as (p2&k2&Ho2&Hm2&Hfl2). eapply wp_get_obj; [done|]. cbn [buffer size].
  assert (Hsucc : fits (length l1 + length l2) -> effect (Prepend (Some h1) (Some h2)) a (RInt 0) (<[h1 := Some (l2 ++ l1)]> a)).
  { intros H. simpl. exists (Some l1). split; [done|]. exists (Some l2). split; [done|]. rewrite decide_False; [done|]. intros [?|?]; done. }
  case_decide as Hz.
  { apply nil_length_inv in Hz. subst l2. do 2 apply wp_ret. exists (<[h1 := Some ([] ++ l1)]> a). split; [by rewrite insert_id|].
    left. apply Hsucc. simpl. by rewrite Nat.add_0_r. }
  apply wp_bind. unfold malloc_flex. rewrite flex_1. case_decide as Hfit; [|do 3 apply wp_ret; exists a; split; [done|]; left; apply Hfail; by right].
  apply wp_malloc; [intros q o Hq|intros o; do 2 apply wp_ret; fin_fail].
  assert (q <> p1) by (intros ->; congruence). assert (q <> p2) by (intros ->; congruence).
  apply wp_bind. eapply wp_memcpy; [done|simp_st; by rewrite lookup_insert|simp_st; rewrite lookup_insert_ne by done; done|unfold fresh_block; rewrite replicate_length; lia|rewrite app_length; lia|].
  rewrite take_0, drop_0, (take_app_alt l2) by done. cbn [app]. simp_st.
  apply wp_bind. eapply wp_memcpy; [done|simp_st; by rewrite lookup_insert|simp_st; rewrite !lookup_insert_ne by done; done| |rewrite app_length; lia|].
  { rewrite app_length, drop_length. unfold fresh_block. rewrite replicate_length. lia. }
  rewrite take_app_alt, drop_0, (take_app_alt l1) by done. simp_st.
  apply wp_bind. eapply wp_free; [simp_st; rewrite !lookup_insert_ne by done; done|]. simp_st.
  apply wp_bind. eapply wp_set_obj; [simp_st; done|]. do 2 apply wp_ret. simp_st. rewrite !insert_insert, delete_insert_ne by done.
  eexists. split; [|left; apply Hsucc; exact Hfit].
  apply (rep_replace _ _ s a h1 (Some p1)); try done; [by apply (owned_of _ _ (Buffer (Some p1) (length l1)))|].
  unfold buf_ok. cbn [buffer size]. rewrite app_length. split; [lia|]. split; [|unfold fits; rewrite Nat.add_comm; exact Hfit]. exists 0.
  rewrite <-app_assoc. do 2 f_equal. apply drop_ge. rewrite app_length, drop_length. unfold fresh_block. rewrite replicate_length. lia.
Qed.
Lemma fill_ok p x todo : forall (pre l : block) k s (Q : unit -> st BUFFER -> Prop),
  mem s !! p = Some (pre ++ l ++ fresh_block k) -> length l = todo ->
  Q tt (St (<[p := pre ++ replicate todo (Some x) ++ fresh_block k]> (mem s)) (objs s) (oracle s) (fails s)) ->
  wp (fill_loop (Some p) (length pre) todo x) s Q.
Proof.
  induction todo as [|todo IH]; intros pre l k s Q Hm Hl HQ.
  - apply nil_length_inv in Hl. subst l. apply wp_ret. simpl in *. rewrite insert_id in HQ by done. by rewrite st_eta in HQ.
  - destruct l as [|c l]; [done|]. cbn [fill_loop]. apply wp_bind. eapply wp_store; [done|rewrite !app_length; simpl; lia|].
    assert (take (length pre) (pre ++ (c :: l) ++ fresh_block k) ++ [Some x] ++ drop (length pre + length [Some x]) (pre ++ (c :: l) ++ fresh_block k)
       = (pre ++ [Some x]) ++ l ++ fresh_block k) as ->.
    { rewrite take_app_alt by done. rewrite drop_app_ge by (simpl; lia). simpl length. replace (length pre + 1 - length pre) with 1 by lia. simpl. by rewrite <-app_assoc. }
    assert (S (length pre) = length (pre ++ [Some x])) as -> by (rewrite app_length; simpl; lia).
    eapply IH; [simp_st; by rewrite lookup_insert|simpl in Hl; lia|]. simp_st. rewrite insert_insert. by rewrite <-app_assoc.
Qed.
Lemma run_fill h x s a : brep s a -> live a h -> wp (run (Fill h x)) s (post (Fill h x) s a).
Proof.
  intros R Hl. simpl. unfold BUFFER_fill. destruct h as [h|]; [|null_case]. destruct Hl as [c Hc].
  pose proof (get_buf _ _ _ _ R Hc) as G. apply wp_bind, wp_bind. destruct c as [l|].
  - destruct G as (p&k&Ho&Hm&Hfl). eapply wp_get_obj; [done|]. cbn [buffer size]. apply wp_bind.
    apply (fill_ok p x (length l) [] l k); [done..|]. do 2 apply wp_ret. cbn [app].
    exists (<[h := Some (replicate (length l) (Some x))]> a). split; [|left; simpl; exists (Some l); done].
    assert (objs s = <[h := Buffer (Some p) (length l)]> (objs s)) as Hobj by (by rewrite insert_id).
    rewrite Hobj at 1. apply rep_write; try done; [by apply (owned_of _ _ (Buffer (Some p) (length l)))|].
    unfold buf_ok. cbn [buffer size]. rewrite replicate_length. split; [done|]. split; [by exists k|done].
  - eapply wp_get_obj; [done|]. cbn [buffer size]. apply wp_bind, wp_ret. do 2 apply wp_ret.
    exists (<[h := None]> a). split; [by rewrite insert_id|]. left. simpl. by exists None.
Qed.
Lemma run_clone h s a : brep s a -> live a h -> wp (run (Clone h)) s (post (Clone h) s a).
Proof.
  intros R Hl. simpl. unfold BUFFER_clone. destruct h as [h|]; [|null_case]. destruct Hl as [c Hc].
  pose proof (get_buf _ _ _ _ R Hc) as G. destruct (live_obj _ _ h R) as (?&b&?&Hob); [eauto|].
  apply wp_bind, wp_bind. eapply wp_get_obj; [done|]. apply wp_bind. apply wp_new_obj; [intros h' o Hh'|intros o; do 2 apply wp_ret; fin_fail].
  apply wp_bind. eapply safemalloc_ok; [simp_st; by rewrite lookup_insert|simp_st..]; [intros p o' Hp|intros o'].
  - rewrite decide_False by lia. apply wp_bind. eapply wp_get_obj; [simp_st; by rewrite lookup_insert|]. apply wp_bind. cbn [buffer].
    destruct c as [l|].
    + destruct G as (p1&k1&Ho1&Hm1&Hfl1). rewrite Hob in Ho1. simplify_eq. cbn [buffer size].
      assert (p <> p1) by (intros ->; congruence).
      eapply wp_memcpy; [done|simp_st; by rewrite lookup_insert|simp_st; rewrite lookup_insert_ne by done; done|unfold fresh_block; rewrite replicate_length; case_decide; lia|rewrite app_length; lia|].
      simp_st. apply wp_bind. eapply wp_set_obj; [simp_st; by rewrite lookup_insert|]. do 2 apply wp_ret. simp_st. rewrite !insert_insert.
      eexists. split; [|left; simpl; exists (Some l); split; [done|]; exists h'; split; [by eapply fresh_not_in|done]].
      apply (rep_replace _ _ s a h' None); try done; [by apply owned_new|]. unfold buf_ok. cbn [buffer size the from_option id]. split; [done|]. split; [|done].
      rewrite drop_0, take_0, take_app_alt by done. unfold fresh_block. rewrite drop_replicate. eexists. done.
    + rewrite Hob in G. simplify_eq. cbn [buffer size]. apply wp_memcpy_0. apply wp_bind. eapply wp_set_obj; [simp_st; by rewrite lookup_insert|]. do 2 apply wp_ret. simp_st. rewrite !insert_insert.
      eexists. split; [|left; simpl; exists None; split; [done|]; exists h'; split; [by eapply fresh_not_in|done]].
      apply (rep_replace _ _ s a h' None); try done; [by apply owned_new|]. unfold buf_ok. cbn [buffer size the from_option id]. split; [done|]. split; [|done].
      exists 1. done.
  - rewrite decide_True by done. apply wp_bind. eapply wp_free_obj; [simp_st; by rewrite lookup_insert|]. do 2 apply wp_ret. simp_st.
    rewrite insert_insert, delete_insert by done. fin_fail.
Qed.

(** The calls that only look. *)
Lemma deref_ok s a h l p k (Q : content -> st BUFFER -> Prop) :
  brep s a -> objs s !! h = Some (Buffer (Some p) (length l)) -> mem s !! p = Some (l ++ fresh_block k) ->
  Q (Some l) s -> wp (deref (Some h) (Some p)) s Q.
Proof.
  intros R Ho Hm HQ. unfold deref. apply wp_bind. unfold BUFFER_length. apply wp_bind. eapply wp_get_obj; [done|]. apply wp_ret. cbn [size].
  apply wp_bind. eapply wp_load; [done|rewrite app_length; lia|]. apply wp_ret. rewrite drop_0, take_app_alt by done. done.
Qed.
Lemma run_content h ok s a : brep s a -> live a h -> wp (run (Content h ok)) s (post (Content h ok) s a).
Proof.
  intros R Hl. simpl. unfold BUFFER_content. destruct h as [h|]; [|null_case]. destruct Hl as [c Hc].
  destruct ok; [|apply wp_bind, wp_ret, wp_ret; exists a; split; [done|]; left; simpl; by exists c].
  assert (Hdone : post (Content (Some h) true) s a (RBytes (Some c)) s) by (exists a; split; [done|]; left; simpl; by exists c).
  pose proof (get_buf _ _ _ _ R Hc) as G. apply wp_bind, wp_bind. destruct c as [l|].
  - destruct G as (p&k&Ho&Hm&Hfl). eapply wp_get_obj; [done|]. apply wp_ret. apply wp_bind. cbn [buffer]. eapply deref_ok; [done..|]. by apply wp_ret.
  - eapply wp_get_obj; [done|]. apply wp_ret. apply wp_bind, wp_ret. by apply wp_ret.
Qed.
Lemma run_uchar h s a : brep s a -> live a h -> wp (run (UChar h)) s (post (UChar h) s a).
Proof.
  intros R Hl. simpl. unfold BUFFER_u_char. destruct h as [h|].
  2:{ apply wp_bind, wp_ret, wp_bind, wp_ret, wp_ret. exists a. split; [done|]. by left. }
  destruct Hl as [c Hc].
  assert (Hdone : post (UChar (Some h)) s a (RBytes (Some (if decide (the c = []) then None else c))) s) by (exists a; split; [done|]; left; simpl; by exists c).
  pose proof (get_buf _ _ _ _ R Hc) as G. apply wp_bind, wp_bind. destruct c as [l|].
  - destruct G as (p&k&Ho&Hm&Hfl). eapply wp_get_obj; [done|]. apply wp_ret. apply wp_bind. cbn [buffer size]. cbn [the from_option id] in Hdone. destruct (decide (length l = 0)) as [Hz|Hz].
    + apply nil_length_inv in Hz. rewrite decide_True in Hdone by done. apply wp_ret. by apply wp_ret.
    + rewrite decide_False in Hdone by (intros ->; done). eapply deref_ok; [done..|]. by apply wp_ret.
  - eapply wp_get_obj; [done|]. apply wp_ret. apply wp_bind, wp_ret. by apply wp_ret.
Qed.
Lemma obj_size s a h c : brep s a -> a !! h = Some c -> exists b, objs s !! h = Some b /\ size b = length (the c).
Proof.
  intros R Hc. pose proof (get_buf _ _ _ _ R Hc) as G. destruct c as [l|]; [destruct G as (p&k&Ho&_)|]; eauto.
Qed.
Lemma run_size h ok s a : brep s a -> live a h -> wp (run (Size h ok)) s (post (Size h ok) s a).
Proof.
  intros R Hl. simpl. unfold BUFFER_size. destruct h as [h|]; [|null_case]. destruct Hl as [c Hc].
  destruct (obj_size _ _ _ _ R Hc) as (b&Ho&Hs).
  destruct ok; [|apply wp_bind, wp_ret, wp_ret; exists a; split; [done|]; left; simpl; by exists c].
  apply wp_bind, wp_bind. eapply wp_get_obj; [done|]. do 2 apply wp_ret. exists a. split; [done|]. left. simpl. exists c. by rewrite Hs.
Qed.
Lemma run_length h s a : brep s a -> live a h -> wp (run (Length h)) s (post (Length h) s a).
Proof.
  intros R Hl. simpl. unfold BUFFER_length. destruct h as [h|]; [|null_case]. destruct Hl as [c Hc].
  destruct (obj_size _ _ _ _ R Hc) as (b&Ho&Hs).
  apply wp_bind, wp_bind. eapply wp_get_obj; [done|]. do 2 apply wp_ret. exists a. split; [done|]. left. simpl. exists c. by rewrite Hs.
Qed.

Theorem step_ok o s a : brep s a -> allowed a o ->
  exists r s' a', run o s = Done (r, s') /\ brep s' a' /\ (effect o a r a' \/ (fails s < fails s' /\ failure o = Some r /\ a' = a)).
Proof.
  intros R Ha. assert (W : wp (run o) s (post o s a)).
  { destruct o; simpl in Ha; destruct_and?; eauto using run_new, run_create, run_create_with_size, run_delete, run_build, run_append_build,
      run_pre_build, run_content, run_unbuild, run_enlarge, run_shrink, run_size, run_append, run_prepend, run_fill, run_uchar, run_length, run_clone. }
  apply wp_done in W as (r&s'&Hr&(a'&H)). eauto.
Qed.

(** The answer determines the abstract effect. *)
Lemma effect_det o a r a1 a2 (s s' : st BUFFER) :
  (effect o a r a1 \/ (fails s < fails s' /\ failure o = Some r /\ a1 = a)) ->
  (effect o a r a2 \/ (fails s < fails s' /\ failure o = Some r /\ a2 = a)) -> a1 = a2.
Proof.
  assert (D : forall a1 a2, effect o a r a1 -> effect o a r a2 -> a1 = a2).
  { clear. intros a1 a2 H1 H2. destruct o; simpl in *; unfold answers, creates, becomes in *;
      repeat (first [progress (destruct_and?; destruct_or?; simplify_eq) | match goal with
        | H : context [match ?x with _ => _ end] |- _ => destruct x eqn:?
        | H : exists _, _ |- _ => destruct H end | done]). }
  assert (F : forall a1, effect o a r a1 -> failure o = Some r -> a1 = a).
  { clear. intros a1 H1 H2. destruct o; simpl in *; simplify_eq; unfold answers, creates, becomes in *;
      repeat (first [progress (destruct_and?; destruct_or?; simplify_eq) | match goal with
        | H : context [match ?x with _ => _ end] |- _ => destruct x eqn:?
        | H : exists _, _ |- _ => destruct H end | done]). }
  intros [H1|(_&H1&->)] [H2|(_&H2&->)]; eauto. symmetry. eauto.
Qed.
