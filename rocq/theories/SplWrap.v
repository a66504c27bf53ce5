(** constbuffer_array_splitter_split_to_array_of_array, with an array of UINT32_MAX buffers of one byte: what happens when the index of the loop wraps. *)
From Verif Require Import Common CbaModel Tally CbaSpec CbaFacts CbaProofs CbaCalls CbaEnd CbaSlice CbaBalance BatModel CbaLogic BatSpec BatProofs SplModel SplSpec SplProofs SplProofs2.
Local Open Scope Z_scope.

(** ** As long as memory is available nothing makes it run out *)
Definition plenty {A} (m : M heap A) : Prop := forall s x s', oracle s = [] -> m s = Done (x, s') -> oracle s' = [] /\ fails s' = fails s.
Lemma plenty_bind {A B} (m : M heap A) (f : A -> M heap B) : plenty m -> (forall x, plenty (f x)) -> plenty (bind m f).
Proof. intros Hm Hf s y s' Ho (x & s1 & E1 & E2)%bind_inv. apply Hm in E1 as [Ho1 Hf1]; [|done]. apply Hf in E2 as [Ho2 Hf2]; [|done]. split; [done|lia]. Qed.
Lemma plenty_ret {A} (x : A) : plenty (ret x).
Proof. by intros s y s' Ho [= -> ->]. Qed.
Lemma plenty_undef {A} : plenty (undef : M heap A).
Proof. by intros s y s' Ho E. Qed.
Lemma plenty_nofuel {A} : plenty (nofuel : M heap A).
Proof. by intros s y s' Ho E. Qed.
Lemma plenty_get a : plenty (get_node a).
Proof. intros s x s' Ho. unfold get_node. destruct (nodes s !! a); [|done]. by intros [= <- <-]. Qed.
Lemma plenty_set a n : plenty (set_node a n).
Proof. by intros s x s' Ho [= <- <-]. Qed.
Lemma plenty_free_node a : plenty (free_node a).
Proof. intros s x s' Ho. unfold free_node. destruct (nodes s !! a); [|done]. by intros [= <- <-]. Qed.
Lemma plenty_inc b : plenty (CONSTBUFFER_IncRef b).
Proof. intros s x s' Ho. unfold CONSTBUFFER_IncRef. destruct (refs s b); [done|]. by intros [= <- <-]. Qed.
Lemma plenty_dec b : plenty (CONSTBUFFER_DecRef b).
Proof. intros s x s' Ho. unfold CONSTBUFFER_DecRef. destruct (refs s b); [done|]. by intros [= <- <-]. Qed.
Lemma plenty_content b : plenty (CONSTBUFFER_GetContent b).
Proof. intros s x s' Ho. unfold CONSTBUFFER_GetContent. destruct (refs s b); [done|]. by intros [= <- <-]. Qed.
Lemma plenty_allocate : plenty allocate.
Proof. intros s x s' Ho. unfold allocate. rewrite Ho. by intros [= <- <-]. Qed.
Lemma plenty_new_buffer l : plenty (new_buffer l).
Proof. apply plenty_bind; [apply plenty_allocate|]. intros []; [|apply plenty_ret]. by intros s x s' Ho [= <- <-]. Qed.
Lemma plenty_new_node room c f : plenty (new_node room c f).
Proof. apply plenty_bind; [apply plenty_allocate|]. intros []; [|apply plenty_ret]. by intros s x s' Ho [= <- <-]. Qed.
Lemma plenty_new_block room : plenty (new_block room).
Proof. apply plenty_bind; [apply plenty_allocate|]. intros []; [|apply plenty_ret]. by intros s x s' Ho [= <- <-]. Qed.
Lemma plenty_write_cell k i c : plenty (write_cell k i c).
Proof. intros s x s' Ho. unfold write_cell. repeat case_match; try done. by intros [= <- <-]. Qed.
Lemma plenty_read p i : plenty (read_place p i).
Proof. intros s x s' Ho. unfold read_place. repeat case_match; try done; by intros [= <- <-]. Qed.
Create HintDb plenty.
#[global] Hint Resolve plenty_ret plenty_undef plenty_nofuel plenty_get plenty_set plenty_free_node plenty_inc plenty_dec plenty_content plenty_allocate plenty_new_buffer plenty_new_node plenty_new_block plenty_write_cell plenty_read : plenty.
Ltac pl := repeat (first [solve [auto with plenty] | apply plenty_bind; [|intros ?] | progress cbn zeta | case_match | case_decide]).
Lemma plenty_read_buffer a i : plenty (read_buffer a i).
Proof. unfold read_buffer. pl. Qed.
Lemma plenty_write_buffer a i b : plenty (write_buffer a i b).
Proof. unfold write_buffer. pl. Qed.
Lemma plenty_inc_node a : plenty (inc_node a).
Proof. unfold inc_node. pl. Qed.
Lemma plenty_cut_buffer b o z : plenty (CONSTBUFFER_CreateFromOffsetAndSize b o z).
Proof. unfold CONSTBUFFER_CreateFromOffsetAndSize. pl. Qed.
#[global] Hint Resolve plenty_read_buffer plenty_write_buffer plenty_inc_node plenty_cut_buffer : plenty.
Lemma plenty_fill o a si c sb eb n : forall i, plenty (fill_slice o a si c sb eb i n).
Proof. induction n as [|n IH]; intros i; cbn [fill_slice]; pl. Qed.
Lemma plenty_total a n : forall i z, plenty (total_size a i n z).
Proof. induction n as [|n IH]; intros i z; cbn [total_size]; pl. Qed.
#[global] Hint Resolve plenty_fill plenty_total : plenty.
Lemma plenty_size a out : plenty (constbuffer_array_get_all_buffers_size a out).
Proof. unfold constbuffer_array_get_all_buffers_size. pl. Qed.
Lemma plenty_count a : plenty (buffer_count_of a).
Proof. unfold buffer_count_of, constbuffer_array_get_buffer_count. pl. Qed.
Lemma plenty_get_buffer a i : plenty (constbuffer_array_get_buffer a i).
Proof. unfold constbuffer_array_get_buffer. pl. Qed.
Lemma plenty_slice a i n skip keep : plenty (constbuffer_array_create_from_buffer_offset_and_count a i n skip keep).
Proof. unfold constbuffer_array_create_from_buffer_offset_and_count. pl. Qed.
#[global] Hint Resolve plenty_size plenty_count plenty_get_buffer plenty_slice : plenty.
Lemma plenty_store a k i s c o e : plenty (store_slice a k i s c o e).
Proof. unfold store_slice. pl. Qed.
Lemma plenty_skip f a c : forall i n e h, plenty (skip_empty f a c i n e h).
Proof. induction f as [|f IH]; intros i n e h; cbn [skip_empty]; pl. Qed.
#[global] Hint Resolve plenty_store plenty_skip : plenty.
Lemma plenty_cut f a k m : forall r v, plenty (cut f a k m r v).
Proof. induction f as [|f IH]; intros r v; cbn [cut]; pl. Qed.
Lemma plenty_after_cut a k c i r v : plenty (after_cut a k c i r v).
Proof. unfold after_cut. pl. Qed.
#[global] Hint Resolve plenty_cut plenty_after_cut : plenty.
Lemma plenty_fills a k c m i z v : plenty (fills a k c m i z v).
Proof. unfold fills. pl. Qed.
Lemma plenty_copy src a : (forall i, plenty (src i)) -> forall n i d, plenty (copy_buffers src a i d n).
Proof. intros Hs. induction n as [|n IH]; intros i d; cbn [copy_buffers]; pl. Qed.
#[global] Hint Resolve plenty_fills plenty_copy : plenty.
Lemma plenty_create src n : (forall i, plenty (src i)) -> plenty (constbuffer_array_create (Some src) n).
Proof. intros Hs. unfold constbuffer_array_create. pl. Qed.

(** ** With memory available, m is undefined. *)
Definition undefined {A} (m : M heap A) (t : abs) : Prop := forall s, R t s -> oracle s = [] -> m s = Undef.
Lemma undefined_bind {A B} (m : M heap A) (f : A -> M heap B) (Q : post A) t : wp m Q t -> plenty m -> (forall x t', Q x t' 0%nat -> undefined (f x) t') -> undefined (bind m f) t.
Proof.
  intros Hw Hp Hu s HR Ho. destruct (Hw s HR) as (x & s' & t' & e & E & HR' & He & HQ). destruct (Hp s x s' Ho E) as [Ho' Hf]. assert (e = 0%nat) as -> by lia. rewrite (bind_done _ _ _ _ _ E). by apply (Hu x t').
Qed.
Lemma undefined_first {A B} (m : M heap A) (f : A -> M heap B) t : undefined m t -> undefined (bind m f) t.
Proof. intros Hu s HR Ho. unfold bind. by rewrite (Hu s HR Ho). Qed.
Lemma undefined_write k c i x t : mem t !! k = Some c -> (length c <= i)%nat -> undefined (write_cell k i x) t.
Proof. intros Hm Hi s HR _. unfold write_cell. rewrite (r_mem _ _ HR k c Hm), decide_False by lia. done. Qed.

Section wrap.
  Context (a : nat) (l : list nat) (k : nat) (t0 : abs).
  Notation n := (length l).
  Context (Hn : len l = UINT32_MAX).
  Definition one_byte (t : abs) : Prop := held t a l /\ Forall (fun b => is_Some (data t !! b) /\ size_of t b <= UINT32_MAX) l /\ Forall (fun b => length (bytes_of t b) = 1%nat) l.
  Lemma one_total t : one_byte t -> forall i, (i <= n)%nat -> length (concat (map (bytes_of t) (take i l))) = i.
  Proof.
    intros (_ & _ & H1) i Hi. assert (forall l', Forall (fun b => length (bytes_of t b) = 1%nat) l' -> length (concat (map (bytes_of t) l')) = length l') as Hall.
    { induction 1 as [|b l' Hb _ IH]; [done|]. simpl. by rewrite app_length, Hb, IH. }
    rewrite Hall, take_length; [lia|]. by apply Forall_take.
  Qed.
  Lemma one_whole t : one_byte t -> length (all_of_them t l) = n.
  Proof. intros H. rewrite <- (one_total t H n) by done. by rewrite take_ge. Qed.

  (** The next index of the loop after i arrays have been made *)
  Definition at_index (i : nat) : nat := if decide (i < n)%nat then i else 0%nat.
  Definition start_vars (i : nat) : vars := Vars (Z.of_nat (at_index i)) 0 0 0 i i false.

  (** The loop over the empty buffers finds none. *)
  Lemma wp_skip_none t1 i (Q : post (Z * Z * Z * bool)) t : one_byte t1 -> kept t1 t -> (i < n)%nat ->
    Q (Z.of_nat (if decide (S i < n)%nat then i else n), 1, 1, false) t 0%nat ->
    wp (skip_empty (S (Z.to_nat (len l))) (Some a) (len l) (Z.of_nat i) 1 1 false) Q t.
  Proof.
    intros H1 Hk Hi HQ. pose proof (one_whole t1 H1) as Hw. pose proof H1 as (Hh & Hkn & Hone). rewrite len_nat. change 1 with (Z.of_nat 1) at 1.
    eapply (wp_skip_empty a l 1 n t1); try done; try lia. intros q i' Hq Hpre Hor. rewrite !one_total in Hpre by (done || lia). assert (q = 0%nat) as -> by lia. rewrite Nat.add_0_r in *. simpl. destruct Hor as [(-> & b & Hb & _)|[-> He]].
    - apply lookup_lt_Some in Hb. by rewrite decide_True in HQ.
    - by rewrite decide_False in HQ by lia.
  Qed.
  Lemma wp_round t1 i xs t : one_byte t1 -> stored n k t1 xs t -> length xs = i -> (i < n)%nat ->
    wp (fills (Some a) k (len l) 1 (Z.of_nat i) 1 (start_vars i)) (fun r t' f => f = 0%nat ->
      exists x, stored n k t1 (xs ++ [x]) t' /\ r.2 = start_vars (S i) /\ u32 (r.1 + 1) = Z.of_nat (at_index (S i))) t.
  Proof.
    intros H1 Hst Hx Hi. assert (Z.of_nat (at_index i) = Z.of_nat i) as Hat by (unfold at_index; by rewrite decide_True).
    unfold fills, start_vars. cbn [start_buffer_index start_buffer_offset current_buffer_count current_buffer_size index buffer_array_count failed]. rewrite Hat. change (u32 (0 + 1)) with 1. change (u32 (1 - 0)) with 1. change (1 =? 1) with true. cbn iota.
    apply wp_bind. apply (wp_skip_none t1); [done|apply Hst|done|]. cbn beta iota. set (i' := if decide (S i < n)%nat then i else n). apply wp_bind.
    assert (u32 (Z.of_nat i' + 1) = Z.of_nat (at_index (S i))) as Hnext.
    { clear Hat. unfold at_index, len in *. unfold i'. case_decide; [rewrite u32_id by lia; lia|]. replace (Z.of_nat n + 1) with (UINT32_MAX + 1) by lia. done. }
    pose proof H1 as (Hh & Hkn & Hone). destruct (lookup_lt_is_Some_2 l i Hi) as [b Hb]. assert (length (bytes_of t1 b) = 1%nat) as Hlb by (eapply (Forall_lookup_1 _ _ _ _ Hone Hb)).
    rewrite <- Hx at 1. change 1 with (Z.of_nat 1) at 1 2. change 0 with (Z.of_nat 0) at 1.
    eapply (wp_store a l n k t1 Hh Hkn ltac:(lia) xs i 0 0 1 1); [done|lia| |done|done| |].
    - exists b. rewrite Nat.add_0_r. split; [done|]. left. split_and!; [done|lia|done].
    - intros f Hf. apply wp_ret. intros ?. lia.
    - intros x t' Hst' _ _ _. cbn iota. change (u32 (Z.of_nat 1 - Z.of_nat 1)) with 0. change (u32 (1 - 1)) with 0. change (Z.to_nat 0) with 0%nat. apply wp_bind. cbn [cut]. change (0 >? 1) with false. apply wp_ret. cbn [fst snd]. unfold after_cut. cbn [index buffer_array_count failed]. change (0 =? 0) with true. cbn iota.
      apply wp_bind, wp_ret, wp_ret. intros _. exists x. split_and!; [done|cbn [snd]; unfold start_vars; by rewrite Hnext|exact Hnext].
  Qed.
  Lemma last_round t1 xs t : one_byte t1 -> stored n k t1 xs t -> length xs = n -> undefined (fills (Some a) k (len l) 1 0 1 (start_vars n)) t.
  Proof.
    intros H1 Hst Hx. assert (at_index n = 0%nat) as Hat by (unfold at_index; by rewrite decide_False by lia).
    unfold fills, start_vars. cbn [start_buffer_index start_buffer_offset current_buffer_count current_buffer_size index buffer_array_count failed]. rewrite Hat. change (u32 (0 + 1)) with 1. change (u32 (1 - 0)) with 1. change (1 =? 1) with true. cbn iota.
    assert (0 < n)%nat as Hpos by (unfold len in Hn; change UINT32_MAX with 4294967295 in Hn; lia).
    eapply (undefined_bind _ _ (fun r t' f => t' = t /\ exists i', r = (i', 1, 1, false))); [apply (wp_skip_none t1 0); [done|apply Hst|done|]; split; [done|]; eauto|pl|].
    intros r t' [-> [i' ->]]. cbn beta iota. apply undefined_first. unfold store_slice. pose proof H1 as (Hh & Hkn & Hone). destruct (lookup_lt_is_Some_2 l 0 Hpos) as [b Hb]. assert (length (bytes_of t1 b) = 1%nat) as Hlb by (eapply (Forall_lookup_1 _ _ _ _ Hone Hb)).
    assert (slice_of l t1 0 0 0 1 1) as Hs. { exists b. split; [done|]. left. split_and!; [done|lia|done]. } destruct Hst as (Hk & Hm & _). destruct (slice_of_bytes l t1 Hkn t 0 0 0 1 1 Hk Hs) as [Hok _].
    eapply (undefined_bind _ _ (fun r t' f => (f = 0%nat -> exists x, r = Some x) /\ mem t' = mem t)); [|pl|].
    - eapply (wp_slice a l); [by eapply kept_held|done|done|done|done|unfold len; lia|exact Hok| |].
      + intros f Hf. split; [lia|done].
      + intros x t' (l' & d & _ & _ & Hg). destruct (gives_unchanged _ _ _ _ Hg) as (_ & _ & _ & F4 & _). split; [eauto|done].
    - intros r t' [[x ->] Hm']; [done|]. apply undefined_first. eapply undefined_write; [by rewrite Hm', Hm, lookup_insert|]. rewrite app_length, replicate_length. change (map ?f ?y) with (f <$> y). rewrite fmap_length. lia.
  Qed.
  Lemma loop_undefined fuel : one_byte t0 -> forall i xs t, stored n k t0 xs t -> length xs = i -> (i <= n)%nat -> (n < fuel + i)%nat ->
    undefined (arrays_loop fuel (Some a) k (len l) 1 (Z.of_nat (at_index i)) (start_vars i)) t.
  Proof.
    intros H1. induction fuel as [|fuel IH]; intros i xs t Hst Hx Hi Hf; [lia|]. cbn [arrays_loop].
    assert (0 < n)%nat as Hpos by (unfold len in Hn; change UINT32_MAX with 4294967295 in Hn; lia).
    assert (at_index i < n)%nat as Hat by (unfold at_index; case_decide; lia). assert (Z.of_nat (at_index i) <? len l = true) as -> by (unfold len; lia).
    destruct (lookup_lt_is_Some_2 l _ Hat) as [b Hb]. pose proof H1 as (Hh & Hkn & Hone). assert (length (bytes_of t0 b) = 1%nat) as Hlb by (eapply (Forall_lookup_1 _ _ _ _ Hone Hb)).
    eapply (undefined_bind _ _ (fun r t' f => r = Some b /\ t' = get_buf b t)); [eapply (wp_get a l); [eapply kept_held; [apply Hh|apply Hst]|lia|by rewrite Nat2Z.id|done]|pl|]. intros r t' [-> ->]. cbn iota.
    eapply (undefined_bind _ _ (fun c t' f => length c = 1%nat /\ t' = get_buf b t)); [apply wp_buffer_content; [simpl; rewrite upd_same; lia|]; split; [|done]|pl|].
    { rewrite <- Hlb. f_equal. eapply (kept_bytes t0 l Hkn t b); [apply Hst|]. by eapply elem_of_list_lookup_2. }
    intros c t' [Hc ->]. unfold size. rewrite Hc. change (Z.of_nat 1) with 1. change (current_buffer_size (start_vars i)) with 0. change (u32 (0 + 1) <? 1) with false. cbn iota.
    set (t0' := get_buf b t0). assert (stored n k t0' xs (get_buf b t)) as Hst' by (by apply stored_in). assert (one_byte t0') as H1' by done.
    destruct (decide (i < n)%nat) as [Hlt|Hge].
    - assert (at_index i = i) as -> by (unfold at_index; by rewrite decide_True). eapply undefined_bind; [by eapply (wp_round t0')|pl|]. cbn beta. intros r t' (x & Hs2 & Hr2 & Hr1); [done|].
      eapply (undefined_bind _ _ (fun _ t'' f => t'' = put_buf b t')); [apply wp_dec; [destruct Hs2 as ((_ & _ & K3 & _) & _); rewrite K3; simpl; rewrite upd_same; lia|done]|pl|].
      intros _ t'' ->. rewrite Hr2, Hr1. cbn [start_vars failed]. eapply (IH (S i) (xs ++ [x])); [by apply stored_out|rewrite app_length; simpl; lia|lia|lia].
    - assert (i = n) as -> by lia. assert (at_index n = 0%nat) as -> by (unfold at_index; by rewrite decide_False by lia). apply undefined_first. by eapply (last_round t0').
  Qed.
End wrap.

Lemma split_undefined a l t : held t a l -> len l = UINT32_MAX -> Forall (fun b => length (bytes_of t b) = 1%nat) l ->
  undefined (constbuffer_array_splitter_split_to_array_of_array (Some a) 1 true) t.
Proof.
  intros Hh Hn Hone s HR Ho. assert (Forall (fun b => is_Some (data t !! b) /\ size_of t b <= UINT32_MAX) l) as Hkn.
  { destruct (wp_known a l (ret tt) (fun _ _ _ => Forall (fun b => is_Some (data t !! b) /\ size_of t b <= UINT32_MAX) l) t Hh) with (s := s) as (? & ? & ? & ? & _ & _ & _ & H); [|done|done]. intros H. by apply wp_ret. }
  assert (one_byte a l t) as H1 by done. pose proof (one_whole a l t H1) as Hw. assert (total t l = UINT32_MAX) as Ht by (rewrite total_len; unfold len in *; lia).
  revert s HR Ho. change (undefined (constbuffer_array_splitter_split_to_array_of_array (Some a) 1 true) t). unfold constbuffer_array_splitter_split_to_array_of_array. change (1 =? 0) with false. cbn iota.
  eapply (undefined_bind _ _ (fun r t' f => r = len l /\ t' = t)); [by eapply wp_count|pl|]. intros r t' [-> ->].
  eapply (undefined_bind _ _ (fun r t' f => r = Some UINT32_MAX /\ t' = t)); [eapply wp_size; [done| |]; rewrite Ht; [done|lia]|pl|]. intros r t' [-> ->]. cbn iota.
  assert ((len l =? 0) || (UINT32_MAX =? 0) = false) as -> by (by rewrite Hn). change (UINT32_MAX <=? 1) with false. change (u32 (UINT32_MAX + 1 - 1) / 1) with UINT32_MAX. cbn iota. unfold tarray_create.
  change (UINT32_MAX =? 0) with false. cbn iota. assert (Z.to_nat UINT32_MAX = length l) as -> by (rewrite <- Hn; apply len_nat).
  eapply (undefined_bind _ _ (fun r t' f => f = 0%nat -> exists k, r = Some k /\ mem t !! k = None /\ t' = get_block k (replicate (length l) None) t)); [apply wp_block; [done|eauto]|pl|].
  intros r t' (k & -> & Hk & ->); [done|]. apply undefined_first. rewrite len_nat.
  assert (0 < length l)%nat as Hpos by (unfold len in Hn; change UINT32_MAX with 4294967295 in Hn; lia).
  assert (at_index l 0 = 0%nat) as Hat by (unfold at_index; by rewrite decide_True).
  pose proof (loop_undefined a l k t Hn (S (S (length l))) H1 0 []) as Hloop. unfold start_vars in Hloop. rewrite Hat in Hloop. apply Hloop; [|done|lia|lia].
  split_and!; [by split_and!|simpl; by rewrite Nat.sub_0_r|simpl; lia].
Qed.

Lemma wrap_reached m : m = UINT32_MAX -> exists a s, (let* b := new_buffer [7] in match b with Some b => constbuffer_array_create (Some (fun _ => ret b)) m | None => ret None end)%cm (nothing []) = Done (Some a, s) /\
  constbuffer_array_splitter_split_to_array_of_array (Some a) 1 true s = Undef.
Proof.
  intros Hm.
  destruct (sim_buffer [7] start (nothing []) (R_start []) ltac:(done)) as (r & s1 & t1 & E1 & He & HR1). cbn [run] in E1. apply bind_inv in E1 as (rb & s1' & E1 & Er). injection Er as <- ->.
  destruct (plenty_new_buffer [7] (nothing []) _ _ eq_refl E1) as [Ho1 Hf1]. simpl in Hf1. destruct rb as [b|]; simpl in He; [|destruct He as [[[]|?] _]; lia]. destruct He as (_ & _ & _ & Ht1).
  set (l := replicate (Z.to_nat m) b). assert (len l = m) as Hl by (unfold l, len; rewrite replicate_length, Z2Nat.id; [done|by rewrite Hm]). assert (forall x, x ∈ l -> x = b) as Hin by (intros x [-> _]%elem_of_replicate; done). clearbody l.
  assert (0 < refs s1 b)%nat as Hb by (rewrite (r_buf _ _ HR1 b), Ht1; simpl; rewrite upd_same; lia).
  
  destruct (makes_create t1 s1 (fun _ => ret b) l m HR1 (eq_sym Hl) ltac:(lia)) as [[o E2]|(a & s2 & t2 & E2 & Hg & HR2 & _)].
  - intros x ->%Hin. done.
  - intros j x s' _ Hx. by rewrite <- (Hin x) by (by eapply elem_of_list_lookup_2).
  - apply plenty_create in E2 as [_ E2]; [simpl in E2; lia|intros; apply plenty_ret|done].
  - pose proof E2 as E2'. apply plenty_create in E2' as [Ho2 _]; [|intros; apply plenty_ret|done]. exists a, s2. split; [by rewrite (bind_done _ _ _ _ _ E1)|].
    destruct Hg as [_ Ht2]. apply (split_undefined a l t2); [|by rewrite Hl| |done|done].
    + rewrite Ht2. split; simpl; [rewrite upd_same; lia|by rewrite lookup_insert].
    + apply Forall_forall. intros x ->%Hin. rewrite Ht2, Ht1. unfold bytes_of. simpl. by rewrite lookup_insert.
Qed.
