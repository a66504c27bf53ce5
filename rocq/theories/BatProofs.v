(** constbuffer_array_batcher_nv does what its specification says. *)
From Verif Require Import Common CbaModel Tally CbaSpec CbaFacts CbaProofs CbaCalls CbaEnd CbaSlice CbaBalance BatModel CbaLogic MemDataSpec MemDataProofs BatSpec.
Local Open Scope Z_scope.

Lemma wp_item {A} (l : list A) i x (Q : post A) t : l !! i = Some x -> Q x t 0%nat -> wp (item l i) Q t.
Proof. intros H. apply wp_pure. intros s _. unfold item. by rewrite H. Qed.
Lemma wp_weaken {A} (m : M heap A) (Q : post A) t : wp m (fun x t' f => Q x t' f) t -> wp m Q t.
Proof. done. Qed.

Lemma no_null_ok payloads n : forall i s, (i + n <= length payloads)%nat -> no_null payloads i n s = Done (bool_decide (Forall (fun x : option nat => x <> None) (take n (drop i payloads))), s).
Proof.
  induction n as [|n IH]; intros i s H; cbn [no_null]; [by rewrite take_0|].
  destruct (lookup_lt_is_Some_2 payloads i) as [x Hx]; [lia|]. erewrite bind_done by (unfold item; rewrite Hx; reflexivity).
  rewrite (drop_S _ x) by done. cbn [take]. destruct x as [x|].
  - rewrite IH by lia. f_equal. f_equal. apply bool_decide_ext. rewrite Forall_cons. naive_solver.
  - done.
Qed.

Notation wordcells done spare := (map (fun z => Some (Word z)) done ++ replicate spare None).
Lemma put_word done spare z : <[length done := Some (Word z)]> (wordcells done (S spare)) = wordcells (done ++ [z]) spare.
Proof. rewrite insert_app_r_alt by (rewrite map_length; lia). rewrite map_length, Nat.sub_diag. simpl. rewrite map_app. simpl. by rewrite <- (assoc_L (++)). Qed.
Lemma word_free done (spare : nat) : (wordcells done (S spare)) !! length done = Some None.
Proof. rewrite lookup_app_r by (rewrite map_length; lia). by rewrite map_length, Nat.sub_diag. Qed.
Lemma words_no_handles done spare : bufs_in (wordcells done spare) = [] /\ arrs_in (wordcells done spare) = [].
Proof. induction done as [|z done [IH1 IH2]]; simpl; [by induction spare|done]. Qed.
Lemma put_buffer done spare b : <[length done := Some (Buf b)]> (full done (S spare)) = full (done ++ [b]) spare.
Proof. rewrite insert_app_r_alt by (rewrite map_length; lia). rewrite map_length, Nat.sub_diag. simpl. rewrite map_app. simpl. by rewrite <- (assoc_L (++)). Qed.
Lemma buffer_free done (spare : nat) : (full done (S spare)) !! length done = Some None.
Proof. rewrite lookup_app_r by (rewrite map_length; lia). by rewrite map_length, Nat.sub_diag. Qed.
Lemma put_array done spare b : <[length done := Some (Arr b)]> (fulla done (S spare)) = fulla (done ++ [b]) spare.
Proof. rewrite insert_app_r_alt by (rewrite map_length; lia). rewrite map_length, Nat.sub_diag. simpl. rewrite map_app. simpl. by rewrite <- (assoc_L (++)). Qed.
Lemma array_free done (spare : nat) : (fulla done (S spare)) !! length done = Some None.
Proof. rewrite lookup_app_r by (rewrite map_length; lia). by rewrite map_length, Nat.sub_diag. Qed.
Lemma get_block_twice k c c' t : get_block k c (get_block k c' t) = get_block k c t.
Proof. unfold get_block. simpl. by rewrite insert_insert. Qed.
Lemma len_app {A} (l l' : list A) : len (l ++ l') = len l + len l'.
Proof. unfold len. rewrite app_length. lia. Qed.
Lemma len_nonneg {A} (l : list A) : 0 <= len l.
Proof. unfold len. lia. Qed.

Lemma wp_write_counts payloads k xs : forall ls i done spare z (Q : post (option Z)) t,
  Forall2 (held t) xs ls -> (forall j x, xs !! j = Some x -> payloads !! (i + j)%nat = Some (Some x)) -> mem t !! k = Some (wordcells done (length xs + spare)) -> length done = S i ->
  0 <= z < UINT32_MAX ->
  (UINT32_MAX <= z + len (concat ls) -> forall c, bufs_in c = [] -> arrs_in c = [] -> Q None (get_block k c t) 0%nat) ->
  (z + len (concat ls) < UINT32_MAX -> Q (Some (z + len (concat ls))) (get_block k (wordcells (done ++ map len ls) spare) t) 0%nat) ->
  wp (write_counts payloads k i (length xs) z) Q t.
Proof.
  induction xs as [|x xs IH]; intros ls i d spare z Q t Hxs Hit Hm Hd Hz HN HS.
  - apply Forall2_nil_inv_l in Hxs as ->. simpl. apply wp_ret. simpl in HS. rewrite Z.add_0_r, app_nil_r in HS. specialize (HS ltac:(lia)). unfold get_block in HS. simpl in Hm. rewrite insert_id in HS by done. by destruct t.
  - apply Forall2_cons_inv_l in Hxs as (l & ls' & Hl & Hxs & ->). cbn [length write_counts].
    apply wp_bind. eapply wp_item; [pose proof (Hit 0%nat x eq_refl) as H0; rewrite Nat.add_0_r in H0; exact H0|].
    apply wp_bind. eapply (wp_len x l); [done|]. intros Hlen. eapply wp_count; [done|]. pose proof (len_nonneg l). pose proof (len_nonneg (concat ls')).
    apply wp_bind. simpl in Hm. rewrite <- Hd. eapply wp_write; [exact Hm|apply (word_free d (length xs + spare))|done|]. cbn [moved_out].
    rewrite (put_word d (length xs + spare)). cbn [concat] in HN, HS. rewrite len_app in HN, HS.
    destruct (decide (z + len l < UINT32_MAX)) as [Hlt|Hge].
    + rewrite u32_id by lia. assert ((z + len l <? len l) || (z + len l =? UINT32_MAX) = false) as -> by lia.
      rewrite Hd. eapply (IH ls' (S i) (d ++ [len l]) spare); try done.
      * intros j y Hj. rewrite <- (Hit (S j) y Hj). f_equal. lia.
      * simpl. by rewrite lookup_insert.
      * rewrite app_length. simpl. lia.
      * lia.
      * intros Hbig c Hc1 Hc2. rewrite get_block_twice. apply HN; [lia|done|done].
      * intros Hsm. rewrite get_block_twice, <- (assoc_L (++)). cbn [app]. replace (z + len l + len (concat ls')) with (z + (len l + len (concat ls'))) by lia. apply HS. lia.
    + assert ((u32 (z + len l) <? len l) || (u32 (z + len l) =? UINT32_MAX) = true) as ->.
      { unfold u32, UINT32_MOD, UINT32_MAX in *. destruct (decide (z + len l = 4294967295)) as [->|]; [apply orb_true_iff; by right|]. assert ((z + len l) mod 4294967296 = z + len l - 4294967296) as -> by (symmetry; apply (Zmod_unique _ _ 1); lia). lia. }
      apply wp_ret. apply HN; [lia|apply words_no_handles|apply words_no_handles].
Qed.

Lemma wp_gather a l k : forall sub d i done spare (Q : post unit) t,
  held t a l -> 0 <= i -> (forall j b, sub !! j = Some b -> l !! (Z.to_nat i + j)%nat = Some b) -> mem t !! k = Some (full done (length sub + spare)) -> d = length done ->
  (forall t', eqv (get_block k (full (done ++ sub) spare) t) t' -> Q tt t' 0%nat) -> wp (gather (Some a) k d i (length sub)) Q t.
Proof.
  induction sub as [|b sub IH]; intros d i dn spare Q t Hh Hi Hsub Hm -> HQ.
  - simpl. apply wp_ret, HQ. rewrite app_nil_r. simpl in Hm. split_and!; try done. simpl. by rewrite insert_id.
  - cbn [length gather]. pose proof (Hsub 0%nat b eq_refl) as Hb. rewrite Nat.add_0_r in Hb. eapply (wp_len a l); [done|]. intros Hlen.
    apply wp_bind. eapply wp_get; [done|done|exact Hb|]. apply wp_bind. simpl in Hm. eapply wp_write; [exact Hm|apply (buffer_free dn (length sub + spare))|simpl; rewrite upd_same; lia|].
    rewrite (put_buffer dn (length sub + spare)). assert (0 <= i + 1 <= UINT32_MAX) as Hi1. { apply lookup_lt_Some in Hb. unfold len in Hlen. lia. }
    rewrite u32_id by done. eapply (IH _ (i + 1) (dn ++ [b]) spare); simpl.
    + by destruct Hh.
    + lia.
    + intros j y Hj. rewrite <- (Hsub (S j) y Hj). f_equal. lia.
    + by rewrite lookup_insert.
    + rewrite app_length. simpl. lia.
    + intros t' He. apply HQ. eapply eqv_trans; [|exact He]. rewrite <- (assoc_L (++)). split_and!; try done; simpl.
      * by rewrite insert_insert.
      * intros y. unfold upd. repeat case_decide; subst; try done; lia.
Qed.
Lemma wp_gather_all payloads k xs : forall ls i d done spare (Q : post nat) t,
  Forall2 (held t) xs ls -> (forall j x, xs !! j = Some x -> payloads !! (i + j)%nat = Some (Some x)) -> mem t !! k = Some (full done (length (concat ls) + spare)) -> d = length done ->
  (forall t', eqv (get_block k (full (done ++ concat ls) spare) t) t' -> Q (d + length (concat ls))%nat t' 0%nat) -> wp (gather_all payloads k i (length xs) d) Q t.
Proof.
  induction xs as [|x xs IH]; intros ls i d dn spare Q t Hxs Hit Hm -> HQ.
  - apply Forall2_nil_inv_l in Hxs as ->. simpl. apply wp_ret. simpl in *. rewrite Nat.add_0_r, app_nil_r in *. apply HQ. split_and!; try done. simpl. by rewrite insert_id.
  - apply Forall2_cons_inv_l in Hxs as (l & ls' & Hl & Hxs & ->). cbn [length gather_all].
    apply wp_bind. eapply wp_item; [pose proof (Hit 0%nat x eq_refl) as H0; rewrite Nat.add_0_r in H0; exact H0|].
    apply wp_bind. eapply wp_count; [done|]. rewrite len_nat. cbn [concat] in *. rewrite app_length in Hm, HQ.
    apply wp_bind. eapply (wp_gather x l k l _ 0 dn (length (concat ls') + spare)); [done|done|done|by rewrite Nat.add_assoc|done|]. intros t1 He1.
    eapply wp_eqv; [apply eqv_sym, He1|]. eapply (IH ls' (S i) _ (dn ++ l) spare).
    + done.
    + intros j y Hj. rewrite <- (Hit (S j) y Hj). f_equal. lia.
    + simpl. by rewrite lookup_insert.
    + by rewrite app_length.
    + intros t' He. rewrite <- Nat.add_assoc. apply HQ. eapply eqv_trans; [|exact He]. rewrite get_block_twice, <- (assoc_L (++)). by split_and!.
Qed.

Notation all_of t l := (mapM (fun a : option nat => a ≫= fun x => seqs t !! x) l).
Lemma all_arrays t l : Forall (maybe_held t) l -> Forall (fun x => x <> None) l -> exists xs ls, l = map Some xs /\ Forall2 (held t) xs ls /\ all_of t l = Some ls.
Proof.
  induction l as [|x l IH]; intros H1 H2; [by exists [], []|]. apply Forall_cons in H1 as [Hx H1], H2 as [Hx2 H2]. destruct (IH H1 H2) as (xs & ls & -> & HF & E).
  destruct x as [x|]; [|done]. destruct Hx as [lx Hx]. exists (x :: xs), (lx :: ls). split_and!; [done|by constructor|]. simpl in *. destruct Hx as [? ->]. simpl. by rewrite E.
Qed.
Lemma some_null t l : ~ Forall (fun x : option nat => x <> None) l -> all_of t l = None.
Proof.
  induction l as [|x l IH]; intros H; [by destruct H|]. destruct x as [x|]; [|done]. simpl. destruct (seqs t !! x); simpl; [|done].
  rewrite IH; [done|]. intros H'. apply H. by constructor.
Qed.
Lemma word_bytes ws : mapM cell_bytes (map (fun z => Some (Word z)) ws) = Some (map (be_bytes 4) ws).
Proof. induction ws as [|w ws IH]; [done|]. simpl. by rewrite IH. Qed.
Lemma word_bytes_len ws : len (concat (map (be_bytes 4) ws)) = 4 * len ws.
Proof. induction ws as [|w ws IH]; [done|]. cbn [map concat]. rewrite len_app, IH. unfold len. rewrite be_bytes_length. simpl length. lia. Qed.

Definition batch_bad (t : abs) (payloads : option (list (option nat))) (count : Z) : Prop :=
  payloads = None \/ count = 0 \/ UINT32_MAX / 4 - 1 < count \/ match all_of t (take (Z.to_nat count) (default [] payloads)) with None => True | Some ls => UINT32_MAX <= len (concat ls) end.

Lemma unchanged_eqv t t' : eqv t t' -> unchanged t t'.
Proof. intros (E1 & E2 & ? & ? & ?). unfold unchanged. rewrite E1, E2. by split_and!. Qed.
Lemma gives_unchanged t a l t' : gives t a l t' -> data t' = data t /\ seqs t ⊆ seqs t' /\ seqs t' !! a = Some l /\ mem t' = mem t /\ mine t' = mine t /\ ours t' = upd (ours t) a (S (ours t a)).
Proof. intros [H ->]. simpl. split_and!; try done; [|by rewrite lookup_insert]. destruct H as [H|H]; [by apply insert_subseteq|by rewrite insert_id]. Qed.

Lemma wp_batch payloads count t :
  is_u32 count -> match payloads with None => True | Some l => count <= len l /\ Forall (maybe_held t) l end ->
  wp (constbuffer_array_batcher_nv_batch payloads count)
     (fun r t' f => match r with
        | None => (batch_bad t payloads count \/ (0 < f)%nat) /\ unchanged t t'
        | Some a => ~ batch_bad t payloads count /\ f = 0%nat /\ exists ls, all_of t (take (Z.to_nat count) (default [] payloads)) = Some ls /\ batched t ls a t'
        end) t.
Proof.
  intros Hc Hp. assert (unchanged t t) as Hsame by (by apply unchanged_eqv). destruct payloads as [l|]; [|apply wp_ret; split; [left; by left|done]]. destruct Hp as [Hlen Hheld]. cbn [constbuffer_array_batcher_nv_batch].
  destruct ((count =? 0) || (count >? UINT32_MAX / 4 - 1)) eqn:Ec.
  { apply wp_ret. split; [|done]. left. unfold batch_bad. apply orb_true_iff in Ec as [?|?]; [right; left; lia|right; right; left; lia]. }
  apply orb_false_iff in Ec as [Ec0 Ec1]. assert (0 < count <= UINT32_MAX / 4 - 1) as Hcount by (destruct Hc; lia). clear Ec0 Ec1.
  apply wp_bind. eapply wp_pure; [intros s _; apply no_null_ok; unfold len in Hlen; lia|]. rewrite drop_0.
  case_bool_decide as Hnull; cbn [negb].
  2:{ apply wp_ret. split; [|done]. left. right. right. right. simpl. by rewrite (some_null t _ Hnull). }
  destruct (all_arrays t (take (Z.to_nat count) l)) as (xs & ls & Hxs & HF & Hall); [by apply Forall_take|done|]. unfold batch_bad. cbn [default from_option id]. rewrite Hall.
  assert (len xs = count) as Hn. { apply (f_equal length) in Hxs. rewrite take_length, map_length in Hxs. unfold len in *. lia. }
  assert (forall j x, xs !! j = Some x -> l !! (0 + j)%nat = Some (Some x)) as Hit.
  { intros j x Hj. assert (take (Z.to_nat count) l !! j = Some (Some x)) as H by (rewrite Hxs; simpl; by rewrite list_lookup_fmap, Hj). by apply lookup_take_Some in H as [? _]. }
  assert (length xs = length ls) as Hxl by (by eapply Forall2_length). assert (Z.to_nat count = length xs) as Ecount by (unfold len in Hn; lia).
  assert (u32 (count + 1) = count + 1) as Eu by (apply u32_id; unfold UINT32_MAX in *; lia). rewrite Eu. rewrite Ecount.
  assert (Z.to_nat (count + 1) = S (length xs)) as -> by lia. clear Hheld Hxs.
  assert (forall (P : Prop) t', P -> unchanged t t' -> (P \/ (0 < 0)%nat) /\ unchanged t t') as Hbad by tauto.
  apply wp_bind. apply wp_block; [apply wp_ret; split; [right; lia|done]|]. intros k Hk.
  apply wp_bind. eapply (wp_write k (replicate (S (length xs)) None) 0 (Word count)); [simpl; by rewrite lookup_insert|done|done|]. cbn [moved_out]. rewrite get_block_twice.
  change (<[0%nat:=Some (Word count)]> (replicate (S (length xs)) None)) with (wordcells [count] (length xs)).
  apply wp_bind. eapply (wp_write_counts l k xs ls 0 [count] 0 0); [done|done|simpl; rewrite lookup_insert; by rewrite Nat.add_0_r|done|by unfold UINT32_MAX| |].
  - intros Hbig c Hc1 Hc2. rewrite get_block_twice. apply wp_bind. eapply (wp_free k c); [simpl; by rewrite lookup_insert|]. apply wp_ret. split; [left; right; right; right; lia|].
    rewrite Hc1, Hc2. apply unchanged_eqv. split_and!; try done; simpl; [by rewrite delete_insert|intros; lia|intros; lia].
  - intros Hsm. rewrite get_block_twice, app_nil_r. cbn [app]. rewrite Z.add_0_l in *. set (total := len (concat ls)) in *.
    assert (0 <= total) as Htot by apply len_nonneg. rewrite (u32_id (total + 1)) by lia. assert (Z.to_nat (total + 1) = S (length (concat ls))) as -> by (unfold total, len; lia).
    assert (forall t1 f, eqv (get_block k (map (fun z => Some (Word z)) (count :: map len ls)) t) t1 -> (0 < f)%nat ->
      wp (bind (free_block k) (fun _ => ret None)) (fun r t' f' => match r with
        | None => ((Some l = None \/ count = 0 \/ UINT32_MAX / 4 - 1 < count \/ UINT32_MAX <= total) \/ (0 < f + f')%nat) /\ unchanged t t'
        | Some a => ~ (Some l = None \/ count = 0 \/ UINT32_MAX / 4 - 1 < count \/ UINT32_MAX <= total) /\ (f + f')%nat = 0%nat /\ exists ls0, Some ls = Some ls0 /\ batched t ls0 a t'
        end) t1) as Hfree.
    { intros t1 f He Hf. destruct He as (E1 & E2 & E3 & E4 & E5). simpl in *. apply wp_bind. eapply (wp_free k); [rewrite E3; by rewrite lookup_insert|]. apply wp_ret. split; [right; lia|].
      pose proof (words_no_handles (count :: map len ls) 0) as [Hw1 Hw2]. cbn [replicate] in Hw1, Hw2. rewrite app_nil_r in Hw1, Hw2. simpl in Hw1, Hw2 |- *. rewrite Hw1, Hw2. apply unchanged_eqv.
      split_and!; try done; simpl; [rewrite E3; by rewrite delete_insert|intros; rewrite E4; lia|intros; rewrite E5; lia]. }
    apply wp_bind. apply wp_block.
    { eapply wp_mono; [apply (Hfree _ 1%nat); [by split_and!|lia]|]. simpl. intros [a|] t' f; [|tauto]. intros (? & ? & ?). lia. }
    intros k2 Hk2. simpl in Hk2. assert (k2 <> k) as Hne by (intros ->; by rewrite lookup_insert in Hk2). rewrite lookup_insert_ne in Hk2 by done.
    apply wp_bind. eapply (wp_move_memory k (map (fun z => Some (Word z)) (count :: map len ls)) (map (be_bytes 4) (count :: map len ls))).
    { simpl. rewrite lookup_insert_ne by done. by rewrite lookup_insert. }
    { apply word_bytes. }
    { rewrite word_bytes_len. rewrite u32_id by (unfold UINT32_MAX in *; lia). unfold len. cbn [length]. rewrite map_length. unfold len in Hn. lia. }
    { rewrite word_bytes_len. unfold len. cbn [length]. rewrite map_length. unfold UINT32_MAX, len in *. lia. }
    { apply wp_bind. eapply (wp_free k2 (replicate (S (length (concat ls))) None)); [simpl; by rewrite lookup_insert|]. rewrite bufs_none, arrs_none. 
      eapply wp_mono; [apply (Hfree _ 1%nat); [|lia]|]. 
      - split_and!; try done; simpl; [rewrite delete_insert; [done|by rewrite lookup_insert_ne]|intros; lia|intros; lia].
      - simpl. intros [a|] t' f; [|tauto]. intros (? & ? & ?). lia. }
    intros h t1 Hh Hz He. apply (wp_eqv _ _ t1 _ (eqv_sym _ _ He)). clear He. simpl in Hh, Hz.
    assert (concat (map (be_bytes 4) (count :: map len ls)) = header ls) as Eh. { unfold header. cbn [map concat]. rewrite map_map. f_equal. f_equal. unfold len in *. lia. }
    rewrite Eh. clear Eh. simpl mem. simpl data. simpl seqs. simpl mine. simpl ours. rewrite delete_insert_ne, delete_insert by done.
    apply wp_bind. eapply (wp_write k2 (replicate (S (length (concat ls))) None) 0 (Buf h)); [simpl; by rewrite lookup_insert|done|simpl; rewrite upd_same; lia|].
    change (<[0%nat:=Some (Buf h)]> (replicate (S (length (concat ls))) None)) with (full [h] (length (concat ls))).
    apply wp_bind. eapply (wp_gather_all l k2 xs ls 0 1 [h] 0); [done|done|simpl; rewrite lookup_insert; by rewrite Nat.add_0_r|done|]. intros t2 He2.
    destruct He2 as (E1 & E2 & E3 & E4 & E5). simpl in E1, E2, E3, E4, E5. rewrite !insert_insert, app_nil_r in E3. cbn [app] in E3.
    assert (forall b, mine t2 b = mine t b) as E4'.
    { intros b. rewrite E4. unfold upd. case_decide; [subst b|done]. rewrite Hz. repeat case_decide; done || lia. }
    apply wp_bind. eapply (wp_create k2 (h :: concat ls) 0).
    { rewrite E3, lookup_insert. by rewrite app_nil_r. }
    { unfold len. cbn [length]. unfold total, len in *. lia. }
    { unfold total, len in *. cbn [length]. lia. }
    + apply wp_assoc, wp_bind. eapply (wp_release_bufs k2 (h :: concat ls) 0); [rewrite E3, lookup_insert; by rewrite app_nil_r|].
      intros t' (G1 & G2 & G3 & G4 & G5). simpl in *. apply wp_ret. split; [right; lia|]. split_and!.
      * rewrite G1, E1. by apply insert_subseteq.
      * by rewrite G2, E2.
      * rewrite G3, E3. by rewrite delete_insert.
      * intros b. by rewrite G4, E4'.
      * intros a. by rewrite G5, E5.
    + intros a t3 Hg. destruct (gives_unchanged _ _ _ _ Hg) as (F1 & F2 & F3 & F4 & F5 & F6). apply wp_assoc, wp_bind. eapply (wp_release_bufs k2 (h :: concat ls) 0); [rewrite F4, E3, lookup_insert; by rewrite app_nil_r|].
      intros t' (G1 & G2 & G3 & G4 & G5). simpl in *. apply wp_ret. split; [unfold UINT32_MAX in *; intros [?|[?|[?|?]]]; [done|lia|lia|lia]|]. split; [done|]. exists ls. split; [done|]. split_and!.
      * rewrite G1, F1, E1. by apply insert_subseteq.
      * rewrite G2, <- E2. done.
      * rewrite G3, F4, E3. by rewrite delete_insert.
      * intros b. by rewrite G4, F5, E4'.
      * intros x. rewrite G5, F6. unfold upd. case_decide; [subst|]; by rewrite E5.
      * exists h. rewrite G1, F1, E1, G2, F3. by rewrite lookup_insert.
Qed.

(** ** Unbatching *)
Lemma words_lookup c i : (4 * i + 4 <= length c)%nat -> words c !! i = Some (be_value (take 4 (drop (4 * i) c))).
Proof.
  intros H. unfold words. assert (i < length c / 4)%nat by (apply Nat.div_le_lower_bound; lia). change (map ?f ?l) with (f <$> l). rewrite list_lookup_fmap, lookup_seq_lt by done. done.
Qed.
Lemma words_length c : len (words c) = len c / 4.
Proof. unfold len, words. rewrite map_length, seq_length. rewrite Nat2Z.inj_div. done. Qed.
Lemma words_bounds c : all_bytes c -> Forall is_u32 (words c).
Proof.
  intros Hc. unfold words. apply Forall_forall. intros z Hz. apply elem_of_list_fmap in Hz as (i & -> & Hi%elem_of_seq).
  assert (all_bytes (take 4 (drop (4 * i) c))) as Hb by (by apply Forall_take, Forall_drop). apply be_value_bound in Hb. 
  assert (4 * i + 4 <= length c)%nat. { pose proof (Nat.div_mod (length c) 4 ltac:(lia)). lia. }
  rewrite take_length, drop_length in Hb. replace (4 `min` (length c - 4 * i))%nat with 4%nat in Hb by lia. unfold is_u32, UINT32_MAX. change (256 ^ Z.of_nat 4) with 4294967296 in Hb. lia.
Qed.
Lemma wp_read_word c i z (Q : post Z) t : words c !! i = Some z -> Q z t 0%nat -> wp (read_word c i) Q t.
Proof.
  intros Hi. assert (i < length c / 4)%nat as Hlt. { apply lookup_lt_Some in Hi. unfold words in Hi. by rewrite map_length, seq_length in Hi. }
  assert (4 * i + 4 <= length c)%nat as Hle. { pose proof (Nat.div_mod (length c) 4 ltac:(lia)). lia. }
  apply wp_pure. intros s _. unfold read_word. rewrite decide_True by done. rewrite words_lookup in Hi by done. apply (inj Some) in Hi as <-. done.
Qed.

Lemma wp_one_payload a l index c (Q : post (option nat)) t :
  held t a l -> 0 <= index -> 0 <= c -> index + c <= len l ->
  (forall t' f, eqv t t' -> (0 < f)%nat -> Q None t' f) -> (forall x t1 t', gives t x (take (Z.to_nat c) (drop (Z.to_nat index) l)) t1 -> eqv t1 t' -> Q (Some x) t' 0%nat) ->
  wp (one_payload (Some a) index c) Q t.
Proof.
  intros Hh Hi Hc Hin HN HS. unfold one_payload. eapply (wp_len a l); [done|]. intros Hmax. destruct (c =? 0) eqn:E0.
  - assert (c = 0) as -> by lia. apply wp_empty; [apply HN; [by split_and!|lia]|]. intros x t1 Hg. apply (HS x t1 t1); [done|by split_and!].
  - set (sub := take (Z.to_nat c) (drop (Z.to_nat index) l)) in *. assert (length sub = Z.to_nat c) as Hsub by (unfold sub; rewrite take_length, drop_length; unfold len in Hin; lia).
    apply wp_bind. apply wp_block; [apply wp_ret; apply HN; [by split_and!|lia]|]. intros k Hk. rewrite <- Hsub.
    apply wp_bind. eapply (wp_gather a l k sub 0 index [] 0).
    + done.
    + done.
    + intros j b Hj. unfold sub in Hj. apply lookup_take_Some in Hj as [Hj _]. by rewrite lookup_drop in Hj.
    + simpl. rewrite lookup_insert. by rewrite Nat.add_0_r.
    + done.
    + intros t1 (E1 & E2 & E3 & E4 & E5). simpl in E1, E2, E3, E4, E5. rewrite insert_insert, app_nil_r in E3.
      apply wp_bind. eapply (wp_create k sub 0); [rewrite E3, lookup_insert; by rewrite app_nil_r|unfold len; lia|unfold len in *; lia| |].
      * apply wp_assoc, wp_bind. eapply (wp_release_bufs k sub 0); [rewrite E3, lookup_insert; by rewrite app_nil_r|]. intros t' (G1 & G2 & G3 & G4 & G5). apply wp_ret. apply HN; [|lia]. simpl in *.
        split_and!; [congruence|congruence|rewrite G3, E3; by rewrite delete_insert|intros; by rewrite G4, E4|intros; by rewrite G5, E5].
      * intros x t2 Hg. destruct (gives_unchanged _ _ _ _ Hg) as (F1 & F2 & F3 & F4 & F5 & F6). apply wp_assoc, wp_bind.
        eapply (wp_release_bufs k sub 0); [rewrite F4, E3, lookup_insert; by rewrite app_nil_r|]. intros t' (G1 & G2 & G3 & G4 & G5). apply wp_ret. simpl in *.
        eapply (HS x); [split; [|reflexivity]; destruct Hg as [Hg _]; by rewrite E2 in Hg|]. destruct Hg as [_ ->]. simpl in *. split_and!; simpl.
        -- congruence.
        -- by rewrite G2, E2.
        -- rewrite G3, E3. by rewrite delete_insert.
        -- intros. by rewrite G4, E4.
        -- intros y. rewrite G5. unfold upd. case_decide; by rewrite E5.
Qed.

(** What is known after some payloads were made: the arrays xs are in the block k. *)
Definition so_far (t : abs) (k : nat) (done xs : list nat) (spare : nat) (ls : list (list nat)) (t' : abs) : Prop :=
  data t' = data t /\ seqs t ⊆ seqs t' /\ (forall b, mine t' b = mine t b) /\ (forall a, ours t' a = ours t a) /\
  mem t' = <[k := fulla (done ++ xs) spare]> (mem t) /\ Forall2 (fun x l => seqs t' !! x = Some l) xs ls.

Lemma wp_all_payloads a l content k counts : forall i index done (Q : post nat) t,
  held t a l -> 1 <= index <= len l -> Forall is_u32 counts -> (forall j z, counts !! j = Some z -> words content !! (S i + j)%nat = Some z) ->
  mem t !! k = Some (fulla done (length counts)) -> length done = i -> ~ wraps index counts (len l) ->
  (forall t' xs, so_far t k done xs 0 (parts counts (drop (Z.to_nat index) l)) t' -> index + sum counts <= len l -> Q (i + length counts)%nat t' 0%nat) ->
  (forall t' xs spare ls f, so_far t k done xs (S spare) ls t' -> (len l < index + sum counts \/ (0 < f)%nat) -> (length xs < length counts)%nat -> Q (length (done ++ xs)) t' f) ->
  wp (all_payloads (Some a) content (len l) k i (length counts) index) Q t.
Proof.
  induction counts as [|c counts IH]; intros i index dn Q t Hh Hidx Hall Hw Hm Hdn Hwr HS HN.
  - simpl. apply wp_ret. rewrite <- (Nat.add_0_r i). apply (HS t []); [|simpl; lia]. split_and!; try done; [|constructor]. simpl in Hm. rewrite !app_nil_r in *. by rewrite insert_id.
  - cbn [length all_payloads]. apply Forall_cons in Hall as [[Hc0 Hc1] Hall]. simpl in Hwr. eapply (wp_len a l); [done|]. intros Hmax.
    assert (forall z, z ∈ counts -> 0 <= z) as Hnn by (intros z Hz; eapply (proj1 (Forall_forall _ _) Hall z Hz)).
    assert (0 <= sum counts) as Hsum. { clear -Hnn. induction counts as [|z counts IH]; simpl; [lia|]. pose proof (Hnn z ltac:(left)). specialize (IH ltac:(intros; apply Hnn; by right)). unfold sum in *. lia. }
    apply wp_bind. eapply wp_read_word; [pose proof (Hw 0%nat c eq_refl) as H0; rewrite Nat.add_0_r in H0; exact H0|].
    rewrite u32_id by lia. destruct (index + c >? len l) eqn:Eg.
    + apply wp_ret. rewrite <- Hdn. rewrite <- (app_nil_r dn). eapply (HN t [] (length counts) []); [|left; simpl; unfold sum in *; lia|simpl; lia].
      split_and!; try done. rewrite app_nil_r. by rewrite insert_id.
    + apply wp_bind. eapply (wp_one_payload a l index c); [done|lia|done|lia| |].
      * intros t' f (E1 & E2 & E3 & E4 & E5) Hf. apply wp_ret. rewrite <- Hdn, <- (app_nil_r dn), Nat.add_0_r. eapply (HN t' [] (length counts) []); [|right; lia|simpl; lia].
        split_and!; try done; [by rewrite E2|]. rewrite app_nil_r, E3. by rewrite insert_id.
      * intros x t1 t2 Hg He. apply (wp_eqv _ _ _ _ (eqv_sym _ _ He)). clear t2 He. destruct (gives_unchanged _ _ _ _ Hg) as (F1 & F2 & F3 & F4 & F5 & F6).
        apply wp_bind. rewrite <- Hdn. eapply (wp_write k (fulla dn (S (length counts)))); [by rewrite F4|apply array_free|rewrite F6, upd_same; lia|]. rewrite put_array.
        assert (forall y, upd (ours t1) x (Init.Nat.pred (ours t1 x)) y = ours t y) as Ho. { intros y. rewrite F6. unfold upd. repeat case_decide; subst; try done; lia. }
        destruct Hh as [Hoa Hsa]. assert (forall xs ls spare t', so_far (get_block k (fulla (dn ++ [x]) (length counts)) (moved_out (Arr x) t1)) k (dn ++ [x]) xs spare ls t' ->
          so_far t k dn (x :: xs) spare (take (Z.to_nat c) (drop (Z.to_nat index) l) :: ls) t') as Hstep.
        { intros xs ls spare t' (G1 & G2 & G3 & G4 & G5 & G6). simpl in *. split_and!.
          - congruence.
          - by etrans.
          - intros b. by rewrite G3, F5.
          - intros y. by rewrite G4, Ho.
          - rewrite G5, F4, insert_insert. by rewrite <- (assoc_L (++)).
          - constructor; [|done]. by eapply lookup_weaken. }
        replace (S (length dn)) with (length (dn ++ [x])) by (rewrite app_length; simpl; lia).
        eapply (IH _ (index + c) (dn ++ [x])).
        -- split; simpl; [by rewrite Ho|by eapply lookup_weaken].
        -- lia.
        -- done.
        -- intros j z Hj. rewrite <- (Hw (S j) z Hj), app_length, <- Hdn. f_equal. simpl. lia.
        -- simpl. by rewrite lookup_insert.
        -- done.
        -- intros H. apply Hwr. right. split; [lia|done].
        -- intros t' xs Hs Hle. rewrite app_length, <- Nat.add_assoc, Hdn. cbn [length]. apply (HS t' (x :: xs)); [|simpl; unfold sum in *; lia]. apply Hstep in Hs. cbn [parts].
           rewrite drop_drop. replace (Z.to_nat index + Z.to_nat c)%nat with (Z.to_nat (index + c)) by lia. done.
        -- intros t' xs spare ls f Hs Hor Hlt. rewrite <- (assoc_L (++)). cbn [app]. eapply (HN t' (x :: xs)); [by apply Hstep|simpl; unfold sum in *; destruct Hor; [left; lia|right; lia]|simpl; lia].
Qed.

Lemma announces_unique c counts counts' : announces c counts -> announces c counts' -> counts = counts'.
Proof. intros (_ & E & _) (_ & E' & _). congruence. Qed.

Lemma wp_unbatch a out t :
  match a with None => True | Some x => exists l, held t x l /\ forall h rest, l = h :: rest -> all_bytes (bytes_of t h) /\ forall counts, announces (bytes_of t h) counts -> ~ wraps 1 counts (len l) end ->
  wp (constbuffer_array_batcher_nv_unbatch a out)
     (fun r t' f => match r with
        | None => (out = false \/ ~ of_array t a (fun l => exists counts rest, well_formed t l counts rest) \/ (0 < f)%nat) /\ unchanged t t'
        | Some (k, n) => f = 0%nat /\ out = true /\ of_array t a (fun l => exists counts rest, well_formed t l counts rest /\ n = len counts /\ unbatched t (parts counts rest) k t')
        end) t.
Proof.
  intros Ha. assert (unchanged t t) as Hsame by (by apply unchanged_eqv). destruct a as [a|].
  2:{ apply wp_ret. split; [|done]. right. left. intros (? & ? & ? & _). done. }
  destruct out; [|apply wp_ret; split; [by left|done]]. destruct Ha as (l & Hh & Hl). cbn [constbuffer_array_batcher_nv_unbatch].
  pose proof (fun P => of_array_held t (Some a) a l P Hh eq_refl) as Hof.
  assert (forall t', unchanged t t' -> (forall counts rest, ~ well_formed t l counts rest) ->
    (true = false \/ ~ of_array t (Some a) (fun l => exists counts rest, well_formed t l counts rest) \/ (0 < 0)%nat) /\ unchanged t t') as Hbad.
  { intros t' Hu Hno. split; [|done]. right. left. rewrite Hof. naive_solver. }
  apply wp_bind. eapply wp_count; [done|]. destruct (len l =? 0) eqn:E0.
  { apply wp_ret. apply Hbad; [done|]. intros counts rest (h & -> & _). unfold len in E0. simpl in E0. lia. }
  destruct l as [|h rest]; [done|]. destruct (Hl h rest eq_refl) as [Hbytes Hwr]. clear E0 Hl.
  apply wp_bind. eapply (wp_content a (h :: rest) 0 h); [done|done|done|]. intros Hsz.
  assert (forall counts rest', well_formed t (h :: rest) counts rest' -> rest' = rest /\ announces (bytes_of t h) counts /\ sum counts <= len rest) as Hwf.
  { intros counts rest' (h' & [= <- <-] & ? & ?). done. }
  fold (len (bytes_of t h)). pose proof (words_length (bytes_of t h)) as Hwl. set (c := bytes_of t h) in *.
  destruct ((len c <? 4) || negb (len c mod 4 =? 0)) eqn:E4.
  { apply wp_ret. apply Hbad; [done|]. intros counts rest' (-> & (Hm & Hw & _) & _)%Hwf. rewrite Hw in Hwl. unfold len in Hwl at 1. simpl length in Hwl. pose proof (Z_div_mod_eq_full (len c) 4). lia. }
  assert (4 <= len c /\ len c mod 4 = 0) as [H4 Hmod] by lia. pose proof (Z_div_mod_eq_full (len c) 4) as Hdiv.
  destruct (words c) as [|w0 ws] eqn:Ew; [unfold len in Hwl at 1; simpl length in Hwl; lia|]. assert (len ws = len c / 4 - 1) as Hws by (unfold len in Hwl at 1; unfold len at 1; simpl length in Hwl; lia).
  pose proof (words_bounds c Hbytes) as Hwb. rewrite Ew in Hwb. apply Forall_cons in Hwb as [[Hw0 Hw1] Hwb].
  apply wp_bind. eapply (wp_read_word c 0 w0); [by rewrite Ew|]. destruct (w0 =? 0) eqn:E0.
  { apply wp_ret. apply Hbad; [done|]. intros counts rest' (-> & (Hm & Hw & Hne) & _)%Hwf. rewrite Hw in Ew. destruct counts; [done|]. injection Ew as Ew _. unfold len in Ew. simpl in Ew. lia. }
  destruct (negb (len c / 4 - 1 =? w0)) eqn:E1.
  { apply wp_ret. apply Hbad; [done|]. intros counts rest' (-> & (Hm & Hw & Hne) & _)%Hwf. rewrite Hw in Ew. injection Ew as Ew1 Ew2. subst ws. lia. }
  assert (w0 = len ws) as -> by lia. clear E1. assert (announces c ws) as Hann. { split_and!; [done|done|]. intros ->. done. }
  rewrite len_nat. specialize (Hwr ws Hann).
  apply wp_bind. apply wp_block; [apply wp_ret; split; [right; right; lia|done]|]. intros k Hk.
  apply wp_bind. eapply (wp_all_payloads a (h :: rest) c k ws 0 1 []).
  - done.
  - unfold len. simpl length. lia.
  - done.
  - intros j z Hj. rewrite Ew. done.
  - simpl. by rewrite lookup_insert.
  - done.
  - done.
  - intros t' xs (G1 & G2 & G3 & G4 & G5 & G6) Hsum. simpl in *. rewrite decide_False by lia. apply wp_ret. split_and!; [done|done|]. apply Hof. exists ws, rest. split_and!.
    + exists h. split_and!; [done|done|]. unfold len in Hsum at 1. simpl length in Hsum. unfold len. lia.
    + done.
    + split_and!; [by rewrite G1|done|done|done|]. exists xs. split_and!; [done| |]. { rewrite G5, insert_insert, app_nil_r. done. }
      rewrite drop_0 in G6. done.
  - intros t' xs spare ls f (G1 & G2 & G3 & G4 & G5 & G6) Hor Hlt. simpl in *. rewrite decide_True by lia. apply wp_assoc, wp_bind.
    eapply (wp_release_arrays k xs (S spare)); [rewrite G5, lookup_insert; done|]. intros t2 (E1 & E2 & E3 & E4' & E5). apply wp_ret. split.
    + destruct Hor as [Hor|?]; [|right; right; lia]. right. left. rewrite Hof. intros (counts & rest' & (-> & Hann' & Hle)%Hwf). rewrite (announces_unique _ _ _ Hann' Hann) in Hle. unfold len in Hor at 1. simpl length in Hor. unfold len in Hle. lia.
    + simpl in *. split_and!; [by rewrite E1, G1|by rewrite E2| |intros; by rewrite E4', G3|intros; by rewrite E5, G4]. rewrite E3, G5, insert_insert. by rewrite delete_insert.
Qed.

(** ** The header announces the payloads *)
Lemma words_cons z c : 0 <= z <= UINT32_MAX -> words (be_bytes 4 z ++ c) = z :: words c.
Proof.
  intros Hz. unfold words. rewrite app_length, be_bytes_length. replace ((4 + length c) / 4)%nat with (S (length c / 4)) by (change (4 + length c)%nat with (1 * 4 + length c)%nat; rewrite Nat.div_add_l by lia; lia).
  cbn [seq map]. f_equal.
  - change (4 * 0)%nat with 0%nat. rewrite drop_0, take_app_alt by (by rewrite be_bytes_length). rewrite be_value_bytes. change (256 ^ Z.of_nat 4) with 4294967296. unfold UINT32_MAX in Hz. by rewrite Z.mod_small by lia.
  - rewrite <- seq_shift, map_map. apply map_ext. intros i. f_equal. f_equal. rewrite drop_app_ge by (rewrite be_bytes_length; lia). rewrite be_bytes_length. f_equal. lia.
Qed.
Lemma words_counts (zs : list Z) : Forall is_u32 zs -> words (concat (map (be_bytes 4) zs)) = zs.
Proof. induction 1 as [|z zs Hz Hzs IH]; [done|]. cbn [map concat]. rewrite words_cons by apply Hz. by rewrite IH. Qed.
Lemma header_words ls : header ls = concat (map (be_bytes 4) (len ls :: map len ls)).
Proof. unfold header. cbn [map concat]. by rewrite map_map. Qed.
Lemma sum_len (ls : list (list nat)) : sum (map len ls) = len (concat ls).
Proof. induction ls as [|l ls IH]; [done|]. cbn [map concat]. rewrite len_app. unfold sum in *. simpl. lia. Qed.
Lemma parts_concat (ls : list (list nat)) : parts (map len ls) (concat ls) = ls.
Proof. induction ls as [|l ls IH]; [done|]. cbn [map concat parts]. rewrite len_nat, take_app_alt, drop_app_alt by done. by rewrite IH. Qed.
Lemma header_announces ls : ls <> [] -> len ls <= UINT32_MAX -> len (concat ls) <= UINT32_MAX -> announces (header ls) (map len ls) /\ all_bytes (header ls).
Proof.
  intros Hne H1 H2. split.
  - split_and!.
    + rewrite header_words, word_bytes_len. rewrite Z.mul_comm. apply Z_mod_mult.
    + rewrite header_words, words_counts; [unfold len; by rewrite map_length|]. constructor; [split; [apply len_nonneg|done]|]. apply Forall_forall. intros z (l & -> & Hl)%elem_of_list_fmap. split; [apply len_nonneg|].
      assert (len l <= len (concat ls)); [|lia]. clear -Hl. induction Hl as [l ls|l l' ls Hl IH]; cbn [concat]; rewrite len_app; [pose proof (len_nonneg (concat ls)); lia|]. pose proof (len_nonneg l'). lia.
    + by destruct ls.
  - rewrite header_words. clear. induction (len ls :: map len ls) as [|z zs IH]; cbn [map concat]; [constructor|]. apply Forall_app. split; [apply be_bytes_byte|done].
Qed.
Lemma no_wrap counts : forall index n, Forall (fun c => 0 <= c) counts -> index + sum counts <= UINT32_MAX -> ~ wraps index counts n.
Proof.
  induction counts as [|c counts IH]; intros index n Hc H; simpl; [tauto|]. apply Forall_cons in Hc as [Hc Hcs]. unfold sum in H. simpl in H. fold (sum counts) in H.
  assert (0 <= sum counts) by (clear -Hcs; unfold sum; induction Hcs; simpl; lia). intros [?|[_ Hw]]; [lia|]. by apply (IH (index + c) n Hcs ltac:(lia)).
Qed.
Lemma wp_round_trip a h ls t : held t a (h :: concat ls) -> bytes_of t h = header ls -> ls <> [] -> len ls <= UINT32_MAX -> 
  wp (constbuffer_array_batcher_nv_unbatch (Some a) true) (fun r t' f => match r with None => (0 < f)%nat /\ unchanged t t' | Some (k, n) => f = 0%nat /\ n = len ls /\ unbatched t ls k t' end) t.
Proof.
  intros Hh Hb Hne Hlen. eapply (wp_len a); [done|]. intros Hmax. assert (len (concat ls) < UINT32_MAX) as Hc by (unfold len in Hmax; simpl in Hmax; unfold len; lia).
  destruct (header_announces ls Hne Hlen ltac:(lia)) as [Hann Hbytes]. pose proof (fun P => of_array_held t (Some a) a _ P Hh eq_refl) as Hof.
  assert (well_formed t (h :: concat ls) (map len ls) (concat ls)) as Hwf. { exists h. rewrite Hb, sum_len. split_and!; [done|done|lia]. }
  eapply wp_mono; [apply (wp_unbatch (Some a) true t)|].
  - exists (h :: concat ls). split; [done|]. intros ? ? [= <- <-]. rewrite Hb. split; [done|]. intros counts Hc'. rewrite (announces_unique _ _ _ Hc' Hann). apply no_wrap; [|rewrite sum_len; lia].
    apply Forall_forall. intros z (l & -> & _)%elem_of_list_fmap. apply len_nonneg.
  - intros [[k n]|] t' f; simpl.
    + intros (-> & _ & Ho). apply Hof in Ho as (counts & rest & (h' & [= <- <-] & Hann' & _) & -> & Hu). rewrite Hb in Hann'. rewrite (announces_unique _ _ _ Hann' Hann) in Hu |- *. rewrite parts_concat in Hu. split_and!; [done| |done].
      unfold len. by rewrite map_length.
    + intros [[?|[Hn|?]] Hu]; [done| |done]. exfalso. apply Hn, Hof. by exists (map len ls), (concat ls).
Qed.
