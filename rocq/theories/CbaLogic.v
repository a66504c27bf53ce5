(** A logic for programs that use constbuffer_array and blocks of memory: what the user holds before and after. *)
From Verif Require Import Common CbaModel Tally CbaSpec CbaFacts CbaProofs CbaCalls CbaEnd CbaSlice CbaBalance BatModel.
Local Open Scope Z_scope.

Notation post A := (A -> abs -> nat -> Prop).
(** m ends without undefined behaviour; Q: its result, what the user holds after, how many allocations failed *)
Definition wp {A} (m : M heap A) (Q : post A) (t : abs) : Prop :=
  forall s, R t s -> exists x s' t' f, m s = Done (x, s') /\ R t' s' /\ fails s' = (fails s + f)%nat /\ Q x t' f.

Lemma wp_ret {A} (x : A) (Q : post A) t : Q x t 0%nat -> wp (ret x) Q t.
Proof. intros H s HR. exists x, s, t, 0%nat. split_and!; done || lia. Qed.
Lemma wp_mono {A} (m : M heap A) (Q Q' : post A) t : wp m Q t -> (forall x t' f, Q x t' f -> Q' x t' f) -> wp m Q' t.
Proof. intros H HQ s HR. destruct (H s HR) as (x & s' & t' & f & ? & ? & ? & ?). exists x, s', t', f. auto. Qed.
Lemma wp_bind {A B} (m : M heap A) (k : A -> M heap B) (Q : post _) t : wp m (fun x t1 f1 => wp (k x) (fun y t2 f2 => Q y t2 (f1 + f2)%nat) t1) t -> wp (bind m k) Q t.
Proof.
  intros H s HR. destruct (H s HR) as (x & s1 & t1 & f1 & E1 & HR1 & Hf1 & H1). destruct (H1 s1 HR1) as (y & s2 & t2 & f2 & E2 & HR2 & Hf2 & HQ).
  exists y, s2, t2, (f1 + f2)%nat. rewrite (bind_done _ _ _ _ _ E1). split_and!; try done. lia.
Qed.
(** Steps that only read *)
Lemma wp_pure {A} (m : M heap A) x (Q : post _) t : (forall s, R t s -> m s = Done (x, s)) -> Q x t 0%nat -> wp m Q t.
Proof. intros H HQ s HR. exists x, s, t, 0%nat. split_and!; auto. Qed.

(** The same things are held *)
Definition eqv (t t' : abs) : Prop := data t' = data t /\ seqs t' = seqs t /\ mem t' = mem t /\ (forall b, mine t' b = mine t b) /\ (forall a, ours t' a = ours t a).
Lemma eqv_sym t t' : eqv t t' -> eqv t' t.
Proof. intros (? & ? & ? & ? & ?). by split_and!. Qed.
Lemma eqv_trans t1 t2 t3 : eqv t1 t2 -> eqv t2 t3 -> eqv t1 t3.
Proof. intros (Ha1 & Ha2 & Ha3 & Ha4 & Ha5) (Hb1 & Hb2 & Hb3 & Hb4 & Hb5). split_and!; intros; congruence. Qed.
Lemma wp_eqv {A} (m : M heap A) Q t t' : eqv t t' -> wp m Q t' -> wp m Q t.
Proof. intros (? & ? & ? & ? & ?) Hw s HR. apply Hw. by apply (R_same t). Qed.
Lemma wp_eqv_end {A} (m : M heap A) (Q : post A) t : wp m (fun x t' f => exists t'', eqv t' t'' /\ Q x t'' f) t -> wp m Q t.
Proof. intros Hw s HR. destruct (Hw s HR) as (x & s' & t' & f & ? & HR' & ? & t'' & (? & ? & ? & ? & ?) & ?). exists x, s', t'', f. split_and!; try done. by apply (R_same t'). Qed.

(** ** Arrays *)
Lemma wp_count a l (Q : post _) t : held t a l -> Q (len l) t 0%nat -> wp (buffer_count_of (Some a)) Q t.
Proof.
  intros Hh. apply wp_pure. intros s HR. destruct (arr_get t s a l HR Hh) as (n & Hg & _ & Hc & _). unfold buffer_count_of, constbuffer_array_get_buffer_count.
  erewrite bind_done by (erewrite bind_done by exact Hg; reflexivity). by rewrite Hc.
Qed.
Lemma wp_len {A} a l (m : M heap A) Q' t : held t a l -> (len l <= UINT32_MAX -> wp m Q' t) -> wp m Q' t.
Proof. intros Hh H s HR. destruct (arr_get t s a l HR Hh) as (n & _ & _ & _ & Hc). by apply H. Qed.
Lemma wp_content a l i b (Q : post _) t : held t a l -> 0 <= i -> l !! Z.to_nat i = Some b -> (size_of t b <= UINT32_MAX -> Q (Some (bytes_of t b)) t 0%nat) -> wp (constbuffer_array_get_buffer_content (Some a) i) Q t.
Proof.
  intros Hh Hi Hb HQ s HR. destruct (held_content t s a l (Z.to_nat i) b HR Hh Hb) as (Hc & _ & Hs). exists (Some (bytes_of t b)), s, t, 0%nat. split_and!; [|done|lia|auto].
  destruct (arr_get t s a l HR Hh) as (n & Hg & _ & Hn & _). unfold constbuffer_array_get_buffer_content. erewrite bind_done by exact Hg. rewrite Hn.
  apply lookup_lt_Some in Hb as Hlt. assert (i >=? len l = false) as -> by (unfold len; lia).
  erewrite bind_done by (eapply (arr_read t s); [done|apply agrees_refl|done|done]). by erewrite bind_done by exact Hc.
Qed.
Lemma wp_get a l i b (Q : post _) t : held t a l -> 0 <= i -> l !! Z.to_nat i = Some b -> Q (Some b) (get_buf b t) 0%nat -> wp (constbuffer_array_get_buffer (Some a) i) Q t.
Proof.
  intros Hh Hi Hb HQ s HR. destruct (inc_buf_ok t s b HR) as [E HR']. { eapply (arr_alive t s a l); [done|done|]. by eapply elem_of_list_lookup_2. }
  eexists (Some b), _, _, 0%nat. split_and!; [|exact HR'|simpl; lia|done]. destruct (arr_get t s a l HR Hh) as (n & Hg & _ & Hn & _). unfold constbuffer_array_get_buffer.
  erewrite bind_done by exact Hg. rewrite Hn. apply lookup_lt_Some in Hb as Hlt. assert (i >=? len l = false) as -> by (unfold len; lia).
  erewrite bind_done by (eapply (arr_read t s); [done|apply agrees_refl|done|done]). by erewrite bind_done by exact E.
Qed.
Lemma wp_makes l (m : M heap (option nat)) (Q : post _) t : (forall s, R t s -> makes t s m l) -> Q None t 1%nat -> (forall a t', gives t a l t' -> Q (Some a) t' 0%nat) -> wp m Q t.
Proof.
  intros Hm HN HS s HR. destruct (Hm s HR) as [[o E]|(a & s' & t' & E & Hg & HR' & Hf)].
  - exists None, (tick o (S (fails s)) s), t, 1%nat. split_and!; [done|by apply R_tick|simpl; lia|done].
  - exists (Some a), s', t', 0%nat. split_and!; [done|done|lia|auto].
Qed.
Lemma wp_empty (Q : post _) t : Q None t 1%nat -> (forall a t', gives t a [] t' -> Q (Some a) t' 0%nat) -> wp constbuffer_array_create_empty Q t.
Proof. intros HN HS. eapply wp_makes; [intros s HR; by apply makes_empty|done|done]. Qed.

(** ** Blocks *)
Lemma wp_block room (Q : post _) t : Q None t 1%nat -> (forall k, mem t !! k = None -> Q (Some k) (get_block k (replicate room None) t) 0%nat) -> wp (new_block room) Q t.
Proof.
  intros HN HS s HR. destruct (new_block_cases room s) as [[o E]|[o E]].
  - eexists _, _, _, 0%nat. split_and!; [exact E|by apply new_block_ok|simpl; lia|]. apply HS. by apply (fresh_block t s).
  - eexists _, _, _, 1%nat. split_and!; [exact E|by apply R_tick|simpl; lia|done].
Qed.
Lemma wp_write k c i x (Q : post _) t : mem t !! k = Some c -> c !! i = Some None -> match x with Buf b => 0 < mine t b | Arr a => 0 < ours t a | _ => True end%nat ->
  Q tt (get_block k (<[i := Some x]> c) (moved_out x t)) 0%nat -> wp (write_cell k i x) Q t.
Proof.
  intros Hm Hi Hx HQ s HR. destruct (write_cell_ok t s k c i x HR Hm Hi Hx) as (s' & E & Es & HR'). eexists _, s', _, 0%nat. split_and!; [exact E|exact HR'|subst s'; simpl; lia|done].
Qed.
Lemma wp_free k c (Q : post _) t : mem t !! k = Some c ->
  Q tt (Abs (data t) (seqs t) (fun b => mine t b + occ b (bufs_in c))%nat (fun a => ours t a + occ a (arrs_in c))%nat (delete k (mem t))) 0%nat -> wp (free_block k) Q t.
Proof. intros Hm HQ s HR. destruct (free_block_ok t s k c HR Hm) as [E HR']. eexists _, _, _, 0%nat. split_and!; [exact E|exact HR'|simpl; lia|done]. Qed.
(** An array of the buffers stored at the beginning of a block *)
Lemma wp_create k l spare n (Q : post _) t : mem t !! k = Some (full l spare) -> n = len l -> len l <= UINT32_MAX -> Q None t 1%nat -> (forall a t', gives t a l t' -> Q (Some a) t' 0%nat) ->
  wp (constbuffer_array_create (Some (read_place (InBlock k 0))) n) Q t.
Proof.
  intros Hm Hn Hlen HN HS. eapply wp_makes; [|done|done]. intros s HR. apply makes_create; try done.
  - intros b Hb. rewrite (r_buf _ _ HR b). pose proof (tally_ge (fun _ c => occ b (bufs_in c)) _ _ _ (r_mem _ _ HR _ _ Hm)) as H. simpl in H. rewrite bufs_full in H. apply occ_elem in Hb. lia.
  - intros j b s' [_ Hk] Hj. simpl. rewrite (Hk _ _ (r_mem _ _ HR _ _ Hm)). simpl. rewrite lookup_app_l by (rewrite map_length; by eapply lookup_lt_Some).
    by rewrite list_lookup_fmap, Hj.
Qed.

(** ** A block is freed after the handles in it were released. Until then the handles dangle; the releases do not look at the block. *)
Definition with_block (k : nat) (c : list (option cell)) (s : heap) : heap := with_blocks (<[k := c]> (blocks s)) s.
Definition frames {A} (k : nat) (c : list (option cell)) (m : M heap A) : Prop :=
  forall s x s', blocks s !! k = None -> m s = Done (x, s') -> m (with_block k c s) = Done (x, with_block k c s') /\ blocks s' !! k = None.
Lemma frames_bind {A B} k c (m : M heap A) (f : A -> M heap B) : frames k c m -> (forall x, frames k c (f x)) -> frames k c (bind m f).
Proof.
  intros Hm Hf s y s' Hk E. unfold bind in E. destruct (m s) as [[x s1]| |] eqn:E1; [|done|done]. destruct (Hm s x s1 Hk E1) as [E2 Hk1]. destruct (Hf x s1 y s' Hk1 E) as [E3 Hk2].
  split; [|done]. unfold bind. by rewrite E2.
Qed.
Lemma frames_ret {A} k c (x : A) : frames k c (ret x).
Proof. intros s y s' Hk [= -> ->]. done. Qed.
Lemma frames_undef {A} k c : frames k c (undef : M heap A).
Proof. by intros s y s' Hk E. Qed.
Lemma frames_nofuel {A} k c : frames k c (nofuel : M heap A).
Proof. by intros s y s' Hk E. Qed.
Lemma frames_dec k c b : frames k c (CONSTBUFFER_DecRef b).
Proof. intros s x s' Hk. unfold CONSTBUFFER_DecRef. simpl. destruct (refs s b); [done|]. intros [= <- <-]. done. Qed.
Lemma frames_get k c a : frames k c (get_node a).
Proof. intros s x s' Hk. unfold get_node. simpl. destruct (nodes s !! a); [|done]. intros [= <- <-]. done. Qed.
Lemma frames_set k c a n : frames k c (set_node a n).
Proof. intros s x s' Hk [= <- <-]. done. Qed.
Lemma frames_free_node k c a : frames k c (free_node a).
Proof. intros s x s' Hk. unfold free_node. simpl. destruct (nodes s !! a); [|done]. intros [= <- <-]. done. Qed.
Lemma frames_free k c k' : frames k c (free_block k').
Proof.
  intros s x s' Hk. unfold free_block. simpl. destruct (decide (k' = k)) as [->|Hne]; [by rewrite Hk|]. rewrite lookup_insert_ne by done.
  destruct (blocks s !! k') eqn:E; [|done]. intros [= <- <-]. simpl. rewrite lookup_delete_ne by done. split; [|done]. unfold with_block, with_blocks. simpl. by rewrite delete_insert_ne.
Qed.
Lemma frames_read k c p i : frames k c (read_place p i).
Proof.
  intros s x s' Hk. unfold read_place. destruct p as [a off|k' off]; simpl.
  - repeat case_match; try done. by intros [= <- <-].
  - destruct (decide (k' = k)) as [->|Hne]; [by rewrite Hk|]. rewrite lookup_insert_ne by done. destruct (blocks s !! k') as [c'|]; simpl; [|done]. repeat case_match; try done. by intros [= <- <-].
Qed.
Lemma frames_read_buffer k c a i : frames k c (read_buffer a i).
Proof. apply frames_bind; [apply frames_get|intros; apply frames_read]. Qed.
Lemma frames_release k c a i n : frames k c (release_buffers a i n).
Proof.
  revert i. induction n as [|n IH]; intros i; [apply frames_ret|]. cbn [release_buffers]. apply frames_bind; [apply frames_read_buffer|intros b]. apply frames_bind; [apply frames_dec|intros _]. apply IH.
Qed.
Lemma frames_dec_ref k c fuel a : frames k c (dec_ref_n fuel a).
Proof.
  revert a. induction fuel as [|fuel IH]; intros a; [apply frames_nofuel|]. cbn [dec_ref_n]. apply frames_bind; [apply frames_get|intros n]. destruct (nref n) as [|r]; [apply frames_undef|].
  apply frames_bind; [apply frames_set|intros _]. case_decide; [|apply frames_ret]. apply frames_bind; [|intros _; apply frames_free_node]. destruct (custom_free n) as [|ctx|p].
  - apply frames_release.
  - apply frames_bind; [apply frames_get|intros n']. apply frames_bind; [apply frames_release|intros _]. destruct (buffers n') as [|k' [|]]; [apply frames_undef|apply frames_free|apply frames_undef].
  - apply IH.
Qed.

Lemma with_block_id k c s : blocks s !! k = Some c -> with_block k c (with_blocks (delete k (blocks s)) s) = s.
Proof. intros H. destruct s. unfold with_block, with_blocks. simpl in *. by rewrite insert_delete. Qed.

(** The handles l are released one after the other *)
Local Open Scope cm.
Fixpoint dec_all (l : list nat) : M heap unit := match l with [] => ret tt | b :: l => CONSTBUFFER_DecRef b ;;; dec_all l end.
Fixpoint dec_arrays (l : list nat) : M heap unit := match l with [] => ret tt | a :: l => constbuffer_array_dec_ref (Some a) ;;; dec_arrays l end.
Local Close Scope cm.
Lemma bind_inv {S A B} (m : M S A) (f : A -> M S B) s y s' : bind m f s = Done (y, s') -> exists x s1, m s = Done (x, s1) /\ f x s1 = Done (y, s').
Proof. unfold bind. destruct (m s) as [[x s1]| |]; [|done|done]. intros E. by exists x, s1. Qed.
Lemma read_block k c s i x : c !! i = Some (Some x) -> read_cell k i (with_block k c s) = Done (x, with_block k c s).
Proof. intros H. unfold read_cell. simpl. rewrite lookup_insert. simpl. by rewrite H. Qed.
Lemma loop_bufs k c l : forall i s s', (forall j b, l !! j = Some b -> c !! (i + j)%nat = Some (Some (Buf b))) -> blocks s !! k = None -> dec_all l s = Done (tt, s') ->
  release_cells k i (length l) (with_block k c s) = Done (tt, with_block k c s') /\ blocks s' !! k = None.
Proof.
  induction l as [|x l IH]; intros i s s' Hl Hk E; cbn [dec_all length release_cells] in *; [by injection E as <-|].
  apply bind_inv in E as ([] & s1 & E1 & E2). destruct (frames_dec k c x _ _ _ Hk E1) as [E3 Hk1].
  erewrite bind_done by (apply read_block; pose proof (Hl 0%nat x eq_refl) as H0; rewrite Nat.add_0_r in H0; exact H0). erewrite bind_done by exact E3.
  apply (IH (S i) s1 s'); [|done|done]. intros j b Hj. rewrite <- (Hl (S j) b Hj). f_equal. lia.
Qed.
Lemma loop_arrays k c l : forall i s s', (forall j b, l !! j = Some b -> c !! (i + j)%nat = Some (Some (Arr b))) -> blocks s !! k = None -> dec_arrays l s = Done (tt, s') ->
  release_arrays k i (length l) (with_block k c s) = Done (tt, with_block k c s') /\ blocks s' !! k = None.
Proof.
  induction l as [|x l IH]; intros i s s' Hl Hk E; cbn [dec_arrays length release_arrays] in *; [by injection E as <-|].
  apply bind_inv in E as ([] & s1 & E1 & E2). destruct (frames_dec_ref k c (S x) x _ _ _ Hk E1) as [E3 Hk1].
  erewrite bind_done by (apply read_block; pose proof (Hl 0%nat x eq_refl) as H0; rewrite Nat.add_0_r in H0; exact H0). erewrite bind_done by exact E3.
  apply (IH (S i) s1 s'); [|done|done]. intros j b Hj. rewrite <- (Hl (S j) b Hj). f_equal. lia.
Qed.
Lemma wp_unframe (loop rel : M heap unit) k c (Q : post _) t :
  mem t !! k = Some c ->
  (forall s s', blocks s !! k = None -> rel s = Done (tt, s') -> loop (with_block k c s) = Done (tt, with_block k c s') /\ blocks s' !! k = None) ->
  wp rel Q (Abs (data t) (seqs t) (fun b => mine t b + occ b (bufs_in c))%nat (fun a => ours t a + occ a (arrs_in c))%nat (delete k (mem t))) ->
  wp (bind loop (fun _ => free_block k)) Q t.
Proof.
  intros Hm Hl H s HR. destruct (free_block_ok t s k c HR Hm) as [E HR']. pose proof (r_mem _ _ HR _ _ Hm) as Hb.
  destruct (H _ HR') as ([] & s' & t' & f & Er & HR1 & Hf & HQ). destruct (Hl _ _ (lookup_delete _ _) Er) as [El Hk]. rewrite with_block_id in El by done.
  exists tt, s', t', f. split_and!; try done. erewrite bind_done by exact El. unfold free_block. simpl. rewrite lookup_insert. unfold with_block, with_blocks. simpl.
  rewrite delete_insert by done. by destruct s'.
Qed.
Lemma wp_dec_all l : forall (Q : post unit) t, (forall b, occ b l <= mine t b)%nat -> (forall t', eqv (Abs (data t) (seqs t) (fun b => mine t b - occ b l)%nat (ours t) (mem t)) t' -> Q tt t' 0%nat) -> wp (dec_all l) Q t.
Proof.
  induction l as [|x l IH]; intros Q t Hl HQ; cbn [dec_all].
  - apply wp_ret, HQ. split_and!; try done. simpl. intros b. lia.
  - apply wp_bind. intros s HR. destruct (dec_buf_ok t s x HR) as [E HR1]; [specialize (Hl x); simpl in Hl; rewrite decide_True in Hl by done; lia|].
    eexists tt, _, _, 0%nat. split_and!; [exact E|exact HR1|simpl; lia|]. apply IH.
    + intros b. specialize (Hl b). simpl in *. unfold upd. repeat case_decide; subst; try done; lia.
    + intros t' He. apply HQ. eapply eqv_trans; [|exact He]. split_and!; try done. simpl. intros b. unfold upd. repeat case_decide; subst; try done; lia.
Qed.
Lemma wp_dec_arrays l : forall (Q : post unit) t, (forall b, occ b l <= ours t b)%nat -> (forall t', eqv (Abs (data t) (seqs t) (mine t) (fun b => ours t b - occ b l)%nat (mem t)) t' -> Q tt t' 0%nat) -> wp (dec_arrays l) Q t.
Proof.
  induction l as [|x l IH]; intros Q t Hl HQ; cbn [dec_arrays].
  - apply wp_ret, HQ. split_and!; try done. simpl. intros b. lia.
  - apply wp_bind. intros s HR. destruct (dec_top t s x HR) as (s' & E & HR1 & Hf); [specialize (Hl x); simpl in Hl; rewrite decide_True in Hl by done; lia|].
    eexists tt, _, _, 0%nat. split_and!; [exact E|exact HR1|lia|]. apply IH.
    + intros b. specialize (Hl b). simpl in *. unfold upd. repeat case_decide; subst; try done; lia.
    + intros t' He. apply HQ. eapply eqv_trans; [|exact He]. split_and!; try done. simpl. intros b. unfold upd. repeat case_decide; subst; try done; lia.
Qed.
(** release the n buffers at the beginning of a block, then free it *)
Lemma wp_release_bufs k l spare (Q : post unit) t : mem t !! k = Some (full l spare) ->
  (forall t', eqv (Abs (data t) (seqs t) (mine t) (ours t) (delete k (mem t))) t' -> Q tt t' 0%nat) ->
  wp (bind (release_cells k 0 (length l)) (fun _ => free_block k)) Q t.
Proof.
  intros Hm HQ. eapply (wp_unframe _ (dec_all l)); [exact Hm| |].
  - intros s s' Hk E. apply (loop_bufs k _ l 0 s s'); [|done|done]. intros j b Hj. rewrite lookup_app_l by (rewrite map_length; by eapply lookup_lt_Some). simpl. by rewrite list_lookup_fmap, Hj.
  - apply wp_dec_all; simpl; rewrite bufs_full; [intros; lia|]. rewrite arrs_full. intros t' He. apply HQ. eapply eqv_trans; [|exact He]. split_and!; try done; simpl; intros; lia.
Qed.
Notation fulla l spare := (map (fun a => Some (Arr a)) l ++ replicate spare None).
Lemma bufs_fulla l spare : bufs_in (fulla l spare) = [].
Proof. induction l as [|x l IH]; simpl; [by induction spare|done]. Qed.
Lemma arrs_fulla l spare : arrs_in (fulla l spare) = l.
Proof. induction l as [|x l IH]; simpl; [by induction spare|]. unfold arrs_in in *. simpl. by rewrite IH. Qed.
Lemma wp_release_arrays k l spare (Q : post unit) t : mem t !! k = Some (fulla l spare) ->
  (forall t', eqv (Abs (data t) (seqs t) (mine t) (ours t) (delete k (mem t))) t' -> Q tt t' 0%nat) ->
  wp (bind (release_arrays k 0 (length l)) (fun _ => free_block k)) Q t.
Proof.
  intros Hm HQ. eapply (wp_unframe _ (dec_arrays l)); [exact Hm| |].
  - intros s s' Hk E. apply (loop_arrays k _ l 0 s s'); [|done|done]. intros j b Hj. rewrite lookup_app_l by (rewrite map_length; by eapply lookup_lt_Some). simpl. by rewrite list_lookup_fmap, Hj.
  - apply wp_dec_arrays; simpl; rewrite arrs_fulla; [intros; lia|]. rewrite bufs_fulla. intros t' He. apply HQ. eapply eqv_trans; [|exact He]. split_and!; try done; simpl; intros; lia.
Qed.
(** A reference that the user holds is released *)
Lemma wp_dec b (Q : post unit) t : (0 < mine t b)%nat -> Q tt (put_buf b t) 0%nat -> wp (CONSTBUFFER_DecRef b) Q t.
Proof. intros Hb HQ s HR. destruct (dec_buf_ok t s b HR Hb) as [E HR1]. eexists tt, _, _, 0%nat. split_and!; [exact E|exact HR1|simpl; lia|done]. Qed.
(** The block with data becomes a buffer *)
Lemma wp_move_memory k c l n (Q : post (option nat)) t : mem t !! k = Some c -> mapM cell_bytes c = Some l -> n = len (concat l) -> len (concat l) <= UINT32_MAX -> Q None t 1%nat ->
  (forall b t', data t !! b = None -> mine t b = 0%nat -> eqv (Abs (<[b := concat l]> (data t)) (seqs t) (upd (mine t) b 1%nat) (ours t) (delete k (mem t))) t' -> Q (Some b) t' 0%nat) ->
  wp (CONSTBUFFER_CreateWithMoveMemory k n) Q t.
Proof.
  intros Hm Hc -> Hlen HN HS s HR. pose proof (r_mem _ _ HR _ _ Hm) as Hb. unfold CONSTBUFFER_CreateWithMoveMemory. rewrite Hb, Hc, decide_True by done.
  assert (bufs_in c = [] /\ arrs_in c = []) as [Hcb Hca].
  { clear -Hc. revert l Hc. induction c as [|x c IH]; intros l; simpl; [done|]. intros (y & Hx & (z & Hz & _)%bind_Some)%bind_Some. destruct (IH _ Hz) as [Hi1 Hi2].
    destruct x as [[]|]; try done. }
  destruct (new_buffer_cases (concat l) s) as [[o E]|[o E]]; setoid_rewrite (bind_done _ _ _ _ _ E).
  - set (s1 := Heap _ _ _ _ _ _ _ _ _). pose proof (R_buffer t s s1 (concat l) HR) as HR1. specialize (HR1 eq_refl eq_refl eq_refl eq_refl eq_refl eq_refl Hlen eq_refl).
    destruct (free_block_ok _ s1 k c HR1 Hm) as [Ef HR2]. eexists _, _, _, 0%nat. erewrite bind_done by exact Ef. split_and!; [reflexivity|exact HR2|simpl; lia|].
    apply HS; [by apply (fresh_data t s)| |].
    { pose proof (r_buf _ _ HR (bnext s)) as Hb0. destruct (mine t (bnext s)) eqn:Em; [done|]. pose proof (alive_old _ _ (bnext s) HR). lia. }
    rewrite Hcb, Hca. split_and!; try done; simpl; intros; lia.
  - eexists _, _, _, 1%nat. split_and!; [reflexivity|by apply R_tick|simpl; lia|done].
Qed.
Lemma wp_assoc {A B C} (m : M heap A) (f : A -> M heap B) (g : B -> M heap C) (Q : post C) t : wp (bind (bind m f) g) Q t -> wp (bind m (fun x => bind (f x) g)) Q t.
Proof. intros H s HR. destruct (H s HR) as (x & s' & t' & n & E & ?). exists x, s', t', n. split; [|done]. rewrite <- E. unfold bind. by destruct (m s) as [[? ?]| |]. Qed.
