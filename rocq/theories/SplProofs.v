(** constbuffer_array_splitter does what its specification says. *)
From Verif Require Import Common CbaModel Tally CbaSpec CbaFacts CbaProofs CbaCalls CbaEnd CbaSlice CbaBalance BatModel CbaLogic BatSpec BatProofs SplModel SplSpec.
Local Open Scope Z_scope.

(** ** More rules *)
Lemma wp_size a l (Q : post (option Z)) t : held t a l -> (total t l <= UINT32_MAX -> Q (Some (total t l)) t 0%nat) -> (UINT32_MAX < total t l -> Q None t 0%nat) -> wp (constbuffer_array_get_all_buffers_size (Some a) true) Q t.
Proof.
  intros Hh HS HN s HR. destruct (arr_get t s a l HR Hh) as (nd & Hget & Hnd & Hc & Hmax). unfold constbuffer_array_get_all_buffers_size. rewrite (bind_done _ _ _ _ _ Hget), Hc, len_nat.
  rewrite (total_ok t s a l) by (done || unfold UINT32_MAX; lia). rewrite drop_0, Z.add_0_l. case_decide; eexists _, s, t, 0%nat; split_and!; [reflexivity|done|lia|by apply HS|reflexivity|done|lia|apply HN; lia].
Qed.
(** The buffers of an array have a content *)
Lemma wp_known {A} a l (m : M heap A) (Q : post A) t : held t a l -> (Forall (fun b => is_Some (data t !! b) /\ size_of t b <= UINT32_MAX) l -> wp m Q t) -> wp m Q t.
Proof.
  intros Hh H s HR. apply H; [|done]. apply Forall_forall. intros b (i & Hi)%elem_of_list_lookup. destruct (held_content t s a l i b HR Hh Hi) as (_ & -> & ?). by eauto.
Qed.
Lemma wp_content_none a l i (Q : post _) t : held t a l -> len l <= i -> Q None t 0%nat -> wp (constbuffer_array_get_buffer_content (Some a) i) Q t.
Proof.
  intros Hh Hi HQ s HR. eexists _, s, t, 0%nat. split_and!; [|done|lia|exact HQ].
  destruct (arr_get t s a l HR Hh) as (n & Hg & _ & Hn & _). unfold constbuffer_array_get_buffer_content. erewrite bind_done by exact Hg. rewrite Hn.
  by assert (i >=? len l = true) as -> by lia.
Qed.

(** ** The bytes of the array that is split *)
Section bytes.
  Context (t0 : abs) (a : nat) (l : list nat).
  Notation pre i := (concat (map (bytes_of t0) (take i l))).
  Notation whole := (all_of_them t0 l).
  Lemma total_len l' : total t0 l' = len (all_of_them t0 l').
  Proof. unfold all_of_them. induction l' as [|b l' IH]; [done|]. rewrite total_cons, IH. cbn [map concat]. rewrite len_app. done. Qed.
  Lemma pre_S i b : l !! i = Some b -> pre (S i) = pre i ++ bytes_of t0 b.
  Proof. intros H. rewrite (take_S_r _ _ _ H), map_app, concat_app. simpl. by rewrite app_nil_r. Qed.
  Lemma pre_whole i : whole = pre i ++ concat (map (bytes_of t0) (drop i l)).
  Proof. unfold all_of_them. rewrite <- (take_drop i l) at 1. by rewrite map_app, concat_app. Qed.
  Lemma pre_le i : (length (pre i) <= length whole)%nat.
  Proof. rewrite (pre_whole i), app_length. lia. Qed.
  Lemma pre_all i : (length l <= i)%nat -> pre i = whole.
  Proof. intros H. by rewrite take_ge by done. Qed.
  Lemma whole_lookup i b off : l !! i = Some b -> (off < length (bytes_of t0 b))%nat -> whole !! (length (pre i) + off)%nat = bytes_of t0 b !! off.
  Proof.
    intros Hi Hoff. rewrite (pre_whole i), lookup_app_r by lia. rewrite (drop_S _ _ _ Hi). cbn [map concat]. rewrite lookup_app_l by lia. f_equal. lia.
  Qed.

  (** Where split is: the next byte is number p of the whole. *)
  Definition at_pos (p : nat) (x : option bytes * Z * Z) : Prop :=
    let '(cur, i, off) := x in
    if decide (p < length whole)%nat then exists b, 0 <= i /\ l !! Z.to_nat i = Some b /\ cur = Some (bytes_of t0 b) /\ 0 <= off < size_of t0 b /\ p = (length (pre (Z.to_nat i)) + Z.to_nat off)%nat
    else cur = None.

  (** Everything there was is still there *)
  Definition kept (t : abs) : Prop := data t0 ⊆ data t /\ seqs t0 ⊆ seqs t /\ (forall b, mine t b = mine t0 b) /\ (forall x, ours t x = ours t0 x).
  Context (Hh : held t0 a l) (Hknown : Forall (fun b => is_Some (data t0 !! b) /\ size_of t0 b <= UINT32_MAX) l) (Hlen : len l <= UINT32_MAX).
  Lemma kept_held t : kept t -> held t a l.
  Proof. intros (_ & Hs & _ & Ho). destruct Hh as [H1 H2]. split; [by rewrite Ho|]. by eapply lookup_weaken. Qed.
  Lemma kept_bytes t b : kept t -> b ∈ l -> bytes_of t b = bytes_of t0 b.
  Proof. intros (Hd & _) Hb. destruct (proj1 (Forall_forall _ _) Hknown b Hb) as [[c Hc] _]. unfold bytes_of. by rewrite Hc, (lookup_weaken _ _ _ _ Hc Hd). Qed.
  Lemma kept_block k c t : kept t -> kept (get_block k c t).
  Proof. done. Qed.
  Lemma wp_read i b (Q : post (option bytes)) t : kept t -> 0 <= i -> l !! Z.to_nat i = Some b -> Q (Some (bytes_of t0 b)) t 0%nat -> wp (constbuffer_array_get_buffer_content (Some a) i) Q t.
  Proof.
    intros Hk Hi Hb HQ. eapply (wp_content a l); [by apply kept_held|done|done|]. intros _. rewrite kept_bytes; [done|done|]. by eapply elem_of_list_lookup_2.
  Qed.

  Lemma wp_skip_leading fuel : forall cur i (Q : post (bytes * Z)) t,
    kept t -> 0 <= i -> (0 < length whole)%nat -> length (pre (Z.to_nat i)) = 0%nat -> (exists b, l !! Z.to_nat i = Some b /\ cur = Some (bytes_of t0 b)) -> (length l < fuel + Z.to_nat i)%nat ->
    (forall c j, at_pos 0 (Some c, j, 0) -> Q (c, j) t 0%nat) -> wp (skip_leading fuel (Some a) cur i) Q t.
  Proof.
    induction fuel as [|fuel IH]; intros cur i Q t Hk Hi Hw Hp (b & Hb & ->) Hf HQ; [apply lookup_lt_Some in Hb; lia|]. cbn [skip_leading]. unfold size. fold (size_of t0 b). pose proof (pre_S _ _ Hb) as Hpre.
    apply lookup_lt_Some in Hb as Hlt. destruct (size_of t0 b =? 0) eqn:E0.
    - assert (length (pre (S (Z.to_nat i))) = 0%nat) as Hp'. { rewrite Hpre, app_length. unfold size_of in E0. lia. }
      rewrite u32_id by (unfold len in Hlen; lia). destruct (lookup_lt_is_Some_2 l (S (Z.to_nat i))) as [b' Hb'].
      { destruct (decide (S (Z.to_nat i) < length l)%nat); [done|]. rewrite pre_all in Hp' by lia. lia. }
      replace (S (Z.to_nat i)) with (Z.to_nat (i + 1)) in * by lia. apply wp_bind. eapply wp_read; [done|lia|done|]. apply IH; try done; try lia. by exists b'.
    - apply wp_ret, HQ. unfold at_pos. rewrite decide_True by lia. exists b. unfold size_of in *. split_and!; done || lia.
  Qed.
  Lemma wp_next_byte fuel : forall cur i off p (Q : post (option bytes * Z * Z)) t,
    kept t -> 0 <= i -> (exists b, l !! Z.to_nat i = Some b /\ cur = Some (bytes_of t0 b) /\ 0 <= off <= size_of t0 b /\ p = (length (pre (Z.to_nat i)) + Z.to_nat off)%nat) -> (length l + 1 < fuel + Z.to_nat i)%nat ->
    (forall x, at_pos p x -> Q x t 0%nat) -> wp (next_byte fuel (Some a) (bool_decide (p < length whole)%nat) cur i off) Q t.
  Proof.
    induction fuel as [|fuel IH]; intros cur i off p Q t Hk Hi (b & Hb & -> & Hoff & Hp) Hf HQ; [apply lookup_lt_Some in Hb; lia|]. cbn [next_byte]. unfold size. fold (size_of t0 b). pose proof (pre_S _ _ Hb) as Hpre.
    apply lookup_lt_Some in Hb as Hlt. pose proof (pre_le (S (Z.to_nat i))) as Hle. rewrite Hpre, app_length in Hle. destruct (off >=? size_of t0 b) eqn:E0.
    - assert (p = length (pre (S (Z.to_nat i)))) as Hp'. { rewrite Hpre, app_length. unfold size_of in *. lia. }
      rewrite u32_id by (unfold len in Hlen; lia). apply wp_bind. destruct (bool_decide_reflect (p < length whole)%nat) as [Hm|Hm].
      + destruct (lookup_lt_is_Some_2 l (S (Z.to_nat i))) as [b' Hb']. { destruct (decide (S (Z.to_nat i) < length l)%nat); [done|]. rewrite pre_all in Hp' by lia. lia. }
        replace (S (Z.to_nat i)) with (Z.to_nat (i + 1)) in * by lia. eapply wp_read; [done|lia|done|]. rewrite <- (bool_decide_true (p < length whole)%nat Hm) at 1. apply IH; try done; try lia. exists b'. unfold size_of. split_and!; done || lia.
      + apply wp_ret. destruct fuel; [lia|]. cbn [next_byte]. apply wp_ret, HQ. unfold at_pos. by rewrite decide_False by done.
    - apply wp_ret, HQ. unfold at_pos. unfold size_of in *. rewrite decide_True by lia. exists b. unfold size_of in *. split_and!; done || lia.
  Qed.
  Notation bytecells done spare := (map (fun z => Some (Byte z)) done ++ replicate spare None).
  Lemma put_byte d spare z : <[length d := Some (Byte z)]> (bytecells d (S spare)) = bytecells (d ++ [z]) spare.
  Proof. rewrite insert_app_r_alt by (rewrite map_length; lia). rewrite map_length, Nat.sub_diag. simpl. rewrite map_app. simpl. by rewrite <- (assoc_L (++)). Qed.
  Lemma byte_free d (spare : nat) : (bytecells d (S spare)) !! length d = Some None.
  Proof. rewrite lookup_app_r by (rewrite map_length; lia). by rewrite map_length, Nat.sub_diag. Qed.
  Lemma bytes_no_handles d : bufs_in (bytecells d 0) = [] /\ arrs_in (bytecells d 0) = [].
  Proof. rewrite app_nil_r. induction d as [|z d [IH1 IH2]]; done. Qed.
  Lemma bytecells_bytes d : mapM cell_bytes (bytecells d 0) = Some (map (fun z => [z]) d) /\ concat (map (fun z => [z]) d) = d.
  Proof. rewrite app_nil_r. induction d as [|z d [IH1 IH2]]; [done|]. simpl. rewrite IH1. simpl. by rewrite IH2. Qed.

  Lemma wp_copy_bytes m p0 n : forall i d x (Q : post (option bytes * Z * Z)) t,
    kept t -> mem t !! m = Some (bytecells d n) -> length d = i -> (p0 + i + n <= length whole)%nat -> len whole <= UINT32_MAX -> at_pos (p0 + i) x ->
    (forall y, at_pos (p0 + i + n) y -> Q y (get_block m (bytecells (d ++ take n (drop (p0 + i) whole)) 0) t) 0%nat) ->
    wp (copy_bytes (Some a) (len l) m (len whole - Z.of_nat p0) i n x) Q t.
  Proof.
    induction n as [|n IH]; intros i d x Q t Hk Hm Hd Hle Hmax Hx HQ; cbn [copy_bytes].
    - apply wp_ret. rewrite Nat.add_0_r in HQ. specialize (HQ x Hx). rewrite take_0, (app_nil_r d) in HQ. unfold get_block in HQ. rewrite insert_id in HQ by done. by destruct t.
    - unfold at_pos in Hx. destruct x as [[cur j] off]. rewrite decide_True in Hx by lia. destruct Hx as (b & Hj & Hb & -> & Hoff & Hp). unfold size_of in Hoff. pose proof (whole_lookup _ _ (Z.to_nat off) Hb ltac:(lia)) as Hz.
      destruct (lookup_lt_is_Some_2 (bytes_of t0 b) (Z.to_nat off)) as [z Ez]; [lia|]. rewrite Ez in Hz |- *. rewrite <- Hp in Hz.
      apply wp_bind. rewrite <- Hd. eapply wp_write; [exact Hm|apply byte_free|done|]. cbn [moved_out]. rewrite put_byte.
      apply lookup_lt_Some in Hb as Hlt. apply elem_of_list_lookup_2 in Hb as Hin. destruct (proj1 (Forall_forall _ _) Hknown b Hin) as [_ Hsz]. unfold size_of in Hsz.
      assert ((u32 (len whole - Z.of_nat p0 - u32 (Z.of_nat (length d) + 1)) >? 0) = bool_decide (p0 + S i < length whole)%nat) as ->.
      { unfold len in *. rewrite (u32_id (Z.of_nat (length d) + 1)) by lia. rewrite u32_id by lia. destruct (bool_decide_reflect (p0 + S i < length whole)%nat); lia. }
      apply wp_bind. rewrite u32_id by lia. eapply wp_next_byte; [by apply kept_block|done| |unfold len; lia|].
      { exists b. unfold size_of. split_and!; try done; lia. }
      { intros x Hx. rewrite <- (Nat.add_1_r (length d)). replace (length d + 1)%nat with (length (d ++ [z])) by (by rewrite app_length). apply (IH _ (d ++ [z]) x).
        - by apply kept_block.
        - simpl. by rewrite lookup_insert.
        - done.
        - rewrite app_length. simpl. lia.
        - done.
        - rewrite app_length. simpl. by replace (length d + 1)%nat with (S i) by lia.
        - intros y Hy. rewrite get_block_twice. rewrite app_length in Hy |- *. simpl length in Hy |- *. replace (p0 + (length d + 1))%nat with (S (p0 + i)) in Hy |- * by lia.
          specialize (HQ y). rewrite (drop_S _ _ _ Hz) in HQ. cbn [take] in HQ. rewrite <- (assoc_L (++)). cbn [app]. apply HQ. by replace (p0 + i + S n)%nat with (S (p0 + i) + n)%nat by lia. }
  Qed.

  (** The buffers made so far *)
  Context (max : Z) (n : nat).
  Notation mx := (Z.to_nat max).
  Context (Hmx : 0 < max <= UINT32_MAX) (Hfit : len whole <= UINT32_MAX) (Hn1 : (length whole <= n * mx)%nat) (Hn2 : forall j, (j * mx < length whole)%nat -> (j < n)%nat) (Hn3 : (n * mx < length whole + mx)%nat).
  Notation chunk j := (take mx (drop (j * mx) whole)).
  Definition inv (k : nat) (bs : list nat) (t : abs) : Prop :=
    kept t /\ seqs t = seqs t0 /\ mem t = <[k := full bs (n - length bs)]> (mem t0) /\ (length bs <= n)%nat /\
    (forall j b, bs !! j = Some b -> data t !! b = Some (chunk j)) /\ Forall (fun b => data t0 !! b = None) bs.
  Lemma wp_split_loop k fuel : forall bs x t, inv k bs t -> ((length bs * mx < length whole)%nat -> at_pos (length bs * mx) x) -> (length whole < fuel + length bs)%nat ->
    wp (split_loop fuel (Some a) (len l) max k (Z.max 0 (len whole - len bs * max)) x (length bs))
       (fun r t' f => exists bs', inv k bs' t' /\ r.2 = length bs' /\ ((r.1 = 0 /\ length bs' = n /\ f = 0%nat) \/ (0 < r.1 /\ (0 < f)%nat))) t.
  Proof.
    induction fuel as [|fuel IH]; intros bs x t Hi Hx Hf.
    - exfalso. destruct Hi as (_ & _ & _ & Hl & _). assert (n * mx < length whole + mx)%nat as H by done. assert (length bs * mx <= n * mx)%nat by (by apply Nat.mul_le_mono_r). nia.
    - cbn [split_loop]. destruct (Z.max 0 (len whole - len bs * max) >? 0) eqn:Er.
      + assert (length bs * mx < length whole)%nat as Hlt by (unfold len in Er; nia). specialize (Hx Hlt). pose proof (Hn2 _ Hlt) as Hbn.
        destruct Hi as (Hk & Hs & Hm & Hl & Hb & Hfr). assert (Z.max 0 (len whole - len bs * max) = len whole - Z.of_nat (length bs * mx)) as -> by (unfold len; nia).
        set (p := (length bs * mx)%nat) in *. set (nx := Z.to_nat (Z.min max (len whole - Z.of_nat p))). assert (Z.min max (len whole - Z.of_nat p) = Z.of_nat nx) as Enx by (unfold nx, len; lia). rewrite Enx.
        apply wp_bind. apply wp_block.
        { apply wp_ret. exists bs. split; [by split_and!|]. split; [done|]. right. split; [unfold len; simpl; lia|lia]. }
        intros m Hmm. assert (m <> k) as Hmk. { intros ->. rewrite Hm, lookup_insert in Hmm. done. }
        apply wp_bind. rewrite <- (Nat.add_0_r p) in Hx. eapply (wp_copy_bytes m p nx 0 [] x); [by apply kept_block|simpl; by rewrite lookup_insert|done|unfold nx, len; lia|done|done|].
        rewrite Nat.add_0_r in Hx |- *. cbn [app]. intros y Hy. rewrite get_block_twice.
        assert (take nx (drop p whole) = chunk (length bs)) as Hc. { fold p. unfold nx. destruct (decide (max <= len whole - Z.of_nat p)); [f_equal; lia|]. rewrite !take_ge; [done| |]; rewrite drop_length; unfold len in *; lia. } rewrite Hc.
        assert (length (chunk (length bs)) = nx) as Hcl by (rewrite <- Hc, take_length, drop_length; unfold nx, len; lia).
        destruct (bytecells_bytes (chunk (length bs))) as [Hcb Hcc].
        apply wp_bind. eapply wp_move_memory; [simpl; apply lookup_insert|exact Hcb|rewrite Hcc; unfold len; lia|rewrite Hcc; unfold len in *; unfold nx in Hcl; lia| |].
        * apply wp_bind. eapply wp_free; [simpl; apply lookup_insert|]. apply wp_ret. exists bs. split; [|split; [done|right; simpl; split; [unfold len; lia|lia]]].
          destruct (bytes_no_handles (chunk (length bs))) as [H1 H2]. cbn [replicate] in H1, H2. rewrite H1, H2.
          destruct Hk as (K1 & K2 & K3 & K4). split_and!; try done; simpl; [split_and!; try done; simpl; intros; [rewrite <- K3|rewrite <- K4]; lia|]. rewrite delete_insert by done. done.
        * intros b t' Hd Hm0 (E1 & E2 & E3 & E4 & E5). simpl in E1, E2, E3, E4, E5, Hd, Hm0. rewrite Hcc in E1. rewrite delete_insert in E3 by done.
          destruct Hk as (K1 & K2 & K3 & K4).
          apply wp_bind. replace (n - length bs)%nat with (S (n - length (bs ++ [b]))) in Hm by (rewrite app_length; simpl; lia).
          eapply (wp_write k (full bs (S (n - length (bs ++ [b]))))); [by rewrite E3, Hm, lookup_insert|apply buffer_free|rewrite E4, upd_same; lia|]. rewrite put_buffer. cbn [moved_out].
          replace (S (length bs)) with (length (bs ++ [b])) by (rewrite app_length; simpl; lia).
          assert (len whole - Z.of_nat p - Z.of_nat nx = Z.max 0 (len whole - len (bs ++ [b]) * max)) as Hrem. { unfold len. rewrite app_length. simpl. unfold nx, len. lia. }
          rewrite u32_id by (unfold len in *; lia). rewrite Hrem. apply (IH (bs ++ [b]) y).
          -- split_and!; simpl.
             ++ split_and!; simpl.
                ** rewrite E1. etrans; [exact K1|]. by apply insert_subseteq.
                ** by rewrite E2.
                ** intros b'. unfold upd. rewrite E4. case_decide as Hbb; [|rewrite E4; unfold upd; by rewrite decide_False]. subst. rewrite upd_same. simpl. by rewrite <- K3, Hm0.
                ** intros y'. by rewrite E5.
             ++ by rewrite E2.
             ++ by rewrite E3, Hm, insert_insert.
             ++ rewrite app_length. simpl. lia.
             ++ intros j b' Hj. rewrite E1. destruct (decide (j < length bs)%nat) as [Hjl|Hjl].
                ** rewrite lookup_app_l in Hj by done. rewrite lookup_insert_ne; [by apply Hb|]. intros ->. rewrite (Hb _ _ Hj) in Hd. done.
                ** apply lookup_lt_Some in Hj as Hj2. rewrite app_length in Hj2. simpl in Hj2. assert (j = length bs) as -> by lia. rewrite lookup_app_r, Nat.sub_diag in Hj by lia. injection Hj as ->. by rewrite lookup_insert.
             ++ apply Forall_app. split; [done|]. constructor; [|done]. destruct (data t0 !! b) as [c|] eqn:Ec; [|done]. rewrite (lookup_weaken _ _ _ _ Ec K1) in Hd. done.
          -- intros Hlt'. replace (length (bs ++ [b]) * mx)%nat with (p + nx)%nat; [done|]. rewrite app_length in Hlt' |- *. simpl in *. unfold nx, len. unfold p in *. nia.
          -- rewrite app_length. simpl. lia.
      + apply wp_ret. exists bs. split_and!; [done|done|]. left. simpl. destruct Hi as (_ & _ & _ & Hl & _). split_and!; [lia| |done].
        destruct (decide (length bs < n)%nat) as [Hlt|]; [|lia]. exfalso. assert (length bs * mx < length whole)%nat; [|unfold len in Er; nia]. assert ((length bs + 1) * mx <= n * mx)%nat by (apply Nat.mul_le_mono_r; lia). lia.
  Qed.
End bytes.

(** ** Pieces *)
Lemma chunks_concat (whole : bytes) mx n : forall j, (length whole <= (j + n) * mx)%nat -> concat (map (fun j => take mx (drop (j * mx) whole)) (seq j n)) = drop (j * mx) whole.
Proof.
  induction n as [|n IH]; intros j H; cbn [seq map concat]; [by rewrite drop_ge by lia|]. rewrite IH by (replace (S j + n)%nat with (j + S n)%nat by lia; done).
  rewrite <- (take_drop mx (drop (j * mx) whole)) at 2. rewrite drop_drop. f_equal. f_equal. simpl. lia.
Qed.
Lemma chunks_pieces (whole : bytes) max n : 0 < max -> (length whole <= n * Z.to_nat max)%nat -> (n * Z.to_nat max < length whole + Z.to_nat max)%nat ->
  pieces max whole (map (fun j => take (Z.to_nat max) (drop (j * Z.to_nat max) whole)) (seq 0 n)).
Proof.
  intros Hm H1 H2. split; [by rewrite (chunks_concat whole (Z.to_nat max) n 0)|]. intros j p. change (map ?f ?l) with (f <$> l). rewrite list_lookup_fmap. intros Hj. destruct (decide (j < n)%nat) as [Hjn|Hjn].
  - rewrite lookup_seq_lt in Hj by done. injection Hj as <-. simpl. unfold len. rewrite take_length, drop_length, fmap_length, seq_length. assert ((j + 1) * Z.to_nat max <= n * Z.to_nat max)%nat by (apply Nat.mul_le_mono_r; lia). split; [lia|].
    intros Hlt. assert ((j + 2) * Z.to_nat max <= n * Z.to_nat max)%nat by (apply Nat.mul_le_mono_r; lia). lia.
  - rewrite lookup_seq_ge in Hj by lia. done.
Qed.
Lemma split_count whole max : 0 < max -> 0 < whole -> whole + max - 1 <= UINT32_MAX -> let n := Z.to_nat (u32 (whole + max - 1) / max) in
  Z.of_nat n = u32 (whole + max - 1) / max /\ (Z.to_nat whole <= n * Z.to_nat max)%nat /\ (n * Z.to_nat max < Z.to_nat whole + Z.to_nat max)%nat.
Proof.
  intros Hm Hw Hmax n. unfold n. rewrite u32_id by lia. pose proof (Z.div_mod (whole + max - 1) max ltac:(lia)) as Hd. pose proof (Z.mod_pos_bound (whole + max - 1) max ltac:(lia)).
  assert (0 <= (whole + max - 1) / max) by (apply Z.div_pos; lia). rewrite Z2Nat.id by done. split; [done|]. set (q := (whole + max - 1) / max) in *. split; nia.
Qed.

Lemma unchanged_refl t : unchanged t t.
Proof. by split_and!. Qed.
Lemma gives_copied t x t' : gives t x [] t' -> copied t [] x t'.
Proof.
  intros Hg. destruct (gives_unchanged _ _ _ _ Hg) as (F1 & F2 & F3 & F4 & F5 & F6). split_and!; [by rewrite F1|done|done|by rewrite F5| |].
  - intros y. rewrite F6. unfold upd. case_decide; by subst.
  - exists []. by split_and!.
Qed.
Lemma gives_empty_pieces max : pieces max [] [].
Proof. split; [done|]. by intros j p Hj. Qed.
Lemma wp_split a max t :
  is_u32 max -> maybe_held t a -> ~ of_array t a (fun l => total t l <= UINT32_MAX < total t l + max - 1) ->
  wp (constbuffer_array_splitter_split a max) (fun r t' f =>
    match r with
    | None => (a = None \/ max = 0 \/ of_array t a (fun l => UINT32_MAX < total t l) \/ (0 < f)%nat) /\ unchanged t t'
    | Some x => f = 0%nat /\ max <> 0 /\ of_array t a (fun l => total t l <= UINT32_MAX /\ exists ps, pieces max (all_of_them t l) ps /\ copied t ps x t')
    end) t.
Proof.
  intros [Hm0 Hm1] Ha Hwr. unfold constbuffer_array_splitter_split. destruct a as [a|]; [|apply wp_ret; split; [by left|apply unchanged_refl]].
  destruct Ha as [l Hh]. pose proof (fun P => of_array_held t (Some a) a l P Hh eq_refl) as Hof. rewrite Hof in Hwr.
  destruct (max =? 0) eqn:E0; [apply wp_ret; split; [right; left; lia|apply unchanged_refl]|].
  apply (wp_known a l); [done|]. intros Hknown. apply (wp_len a l); [done|]. intros Hlen. apply wp_bind. eapply wp_count; [done|].
  destruct (len l =? 0) eqn:El.
  { assert (l = []) as -> by (destruct l; [done|unfold len in El; simpl in El; lia]). apply wp_empty; [split; [right; right; right; lia|apply unchanged_refl]|]. intros x t' Hg.
    split_and!; [done|lia|]. apply Hof. split; [done|]. exists []. split; [apply gives_empty_pieces|by apply gives_copied]. }
  apply wp_bind. eapply wp_size; [done| |].
  2:{ intros Hbig. apply wp_ret. split; [right; right; left; by apply Hof|apply unchanged_refl]. }
  intros Hfit. assert (total t l + max - 1 <= UINT32_MAX) as Hw by lia. clear Hwr. pose proof (total_len t l) as Htl. rewrite Htl in *. set (whole := all_of_them t l) in *. cbn iota.
  destruct (len whole =? 0) eqn:Ez.
  { assert (whole = []) as Hwh by (destruct whole; [done|unfold len in Ez; simpl in Ez; lia]). apply wp_empty; [split; [right; right; right; lia|apply unchanged_refl]|]. intros x t' Hg.
    split_and!; [done|lia|]. apply Hof. split; [by rewrite Htl|]. fold whole. rewrite Hwh. exists []. split; [apply gives_empty_pieces|by apply gives_copied]. }
  pose proof (len_nonneg whole). destruct (split_count (len whole) max ltac:(lia) ltac:(lia) Hw) as (Hnz & Hn1 & Hn3). set (n := Z.to_nat (u32 (len whole + max - 1) / max)) in *. rewrite <- Hnz.
  replace (Z.to_nat (len whole)) with (length whole) in Hn1, Hn3 |- * by (unfold len; lia).
  assert (n <= length whole)%nat as Hnw by (clear -Hn3 E0 Hm0; assert (1 <= Z.to_nat max)%nat by lia; nia).
  assert (forall j, (j * Z.to_nat max < length whole)%nat -> (j < n)%nat) as Hn2. { intros j Hj. destruct (decide (j < n)%nat); [done|]. assert (n * Z.to_nat max <= j * Z.to_nat max)%nat by (apply Nat.mul_le_mono_r; lia). lia. }
  apply wp_bind. apply wp_block; [apply wp_ret; split; [right; right; right; lia|apply unchanged_refl]|]. intros k Hk.
  assert (kept t (get_block k (replicate n None) t)) as Hkept by (by split_and!).
  destruct (lookup_lt_is_Some_2 l 0) as [b0 Hb0]; [unfold len in El; lia|].
  apply wp_bind. eapply (wp_read t a l Hh Hknown 0 b0); [done|done|done|].
  apply wp_bind. apply (wp_skip_leading t a l Hh Hknown Hlen); [done|done|fold whole; unfold len in *; lia|done|by eauto|rewrite len_nat; lia|]. intros c j Hpos. cbn [fst snd].
  apply wp_bind. eapply wp_mono.
  { pose proof (wp_split_loop t a l Hh Hknown Hlen max n) as Hl. fold whole in Hl. specialize (Hl ltac:(lia) ltac:(lia) Hn1 Hn2 Hn3 k (S (length whole)) [] (Some c, j, 0) (get_block k (replicate n None) t)).
    simpl length in Hl. replace (Z.max 0 (len whole - len [] * max)) with (len whole) in Hl by (unfold len; simpl; lia). apply Hl.
    - split_and!; try done; simpl; [by rewrite Nat.sub_0_r|lia].
    - done.
    - lia. }
  intros [rem cnt] t1 f1 (bs & (Hk1 & Hs1 & Hm1' & Hbn & Hb & Hfr) & Hcnt & Hor). simpl in Hcnt, Hor. subst cnt. cbn [fst snd].
  destruct Hk1 as (K1 & K2 & K3 & K4). destruct Hor as [(-> & Hbs & ->)|[Hr Hf1]].
  - change (0 >? 0) with false. cbn iota. apply wp_bind. eapply (wp_create k bs 0); [rewrite Hm1', lookup_insert; by rewrite Hbs, Nat.sub_diag|unfold len; lia|unfold len in *; lia| |].
    + apply wp_assoc, wp_bind. eapply (wp_release_bufs k bs 0); [rewrite Hm1', lookup_insert; by rewrite Hbs, Nat.sub_diag|]. intros t' (G1 & G2 & G3 & G4 & G5). simpl in *. apply wp_ret.
      split; [right; right; right; lia|]. split_and!; [by rewrite G1|by rewrite G2|rewrite G3, Hm1'; by rewrite delete_insert|intros; by rewrite G4|intros; by rewrite G5].
    + intros x t2 Hg. destruct (gives_unchanged _ _ _ _ Hg) as (F1 & F2 & F3 & F4 & F5 & F6). apply wp_assoc, wp_bind.
      eapply (wp_release_bufs k bs 0); [rewrite F4, Hm1', lookup_insert; by rewrite Hbs, Nat.sub_diag|]. intros t' (G1 & G2 & G3 & G4 & G5). simpl in *. apply wp_ret.
      split_and!; [done|lia|]. apply Hof. split; [by rewrite Htl|]. exists (map (fun j => take (Z.to_nat max) (drop (j * Z.to_nat max) whole)) (seq 0 n)). split; [apply chunks_pieces; [lia|done|done]|]. split_and!.
      * by rewrite G1, F1.
      * rewrite G2. by etrans.
      * rewrite G3, F4, Hm1'. by rewrite delete_insert.
      * intros. by rewrite G4, F5.
      * intros y. rewrite G5, F6. unfold upd. destruct (decide (y = x)) as [Hyx|Hyx]; [rewrite Hyx|]; by rewrite K4.
      * exists bs. split_and!; [by rewrite G2|rewrite G1, F1|done]. apply list_eq. intros i. change (map ?f ?l) with (f <$> l). rewrite !list_lookup_fmap. destruct (bs !! i) as [b|] eqn:Ei; simpl.
        -- rewrite (Hb _ _ Ei). rewrite lookup_seq_lt; [done|]. apply lookup_lt_Some in Ei. lia.
        -- rewrite lookup_seq_ge; [done|]. apply lookup_ge_None in Ei. lia.
  - assert (rem >? 0 = true) as -> by lia. cbn iota. apply wp_bind. apply wp_ret. apply wp_assoc, wp_bind. eapply (wp_release_bufs k bs); [rewrite Hm1', lookup_insert; reflexivity|].
    intros t' (G1 & G2 & G3 & G4 & G5). simpl in *. apply wp_ret. split; [right; right; right; lia|]. split_and!; [by rewrite G1|by rewrite G2|rewrite G3, Hm1'; by rewrite delete_insert|intros; by rewrite G4|intros; by rewrite G5].
Qed.
