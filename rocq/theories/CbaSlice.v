(** Slices in bytes. *)
From Verif Require Import Common CbaModel Tally CbaSpec CbaFacts CbaProofs CbaCalls.
Local Open Scope Z_scope.

(** The contents in d are the ones in the heap. *)
Record coh (d : gmap nat bytes) (s : heap) : Prop := {
  c_data : forall b c, d !! b = Some c -> (b < bnext s)%nat /\ content s b = c;
  c_live : forall b, (0 < refs s b)%nat -> d !! b = Some (content s b);
  c_size : forall b, (b < bnext s)%nat -> len (content s b) <= UINT32_MAX }.
(** Only the buffers are different *)
Definition framed (s s' : heap) : Prop :=
  nodes s' = nodes s /\ blocks s' = blocks s /\ nnext s' = nnext s /\ knext s' = knext s /\ fails s' = fails s /\ (bnext s <= bnext s')%nat /\
  forall b, (b < bnext s)%nat -> content s' b = content s b.
Lemma coh_R t s : R t s -> coh (data t) s.
Proof. intros []. by constructor. Qed.

Lemma R_grow t s s' :
  R t s -> nodes s' = nodes s -> blocks s' = blocks s -> knext s' = knext s -> (nnext s <= nnext s')%nat -> (bnext s <= bnext s')%nat ->
  (forall b, refs s' b = refs s b) -> (forall b, (b < bnext s)%nat -> content s' b = content s b) -> (forall b, (b < bnext s')%nat -> len (content s' b) <= UINT32_MAX) -> R t s'.
Proof.
  intros HR Hn Hk Hkn Hnn Hbn Hrefs Hc Hsz. constructor; rewrite ?Hn, ?Hk, ?Hkn; try by apply HR.
  - intros a n Ha. destruct (r_node _ _ HR a n Ha) as (l & ? & ? & ? & ? & Hsh). exists l. split_and!; try done. unfold shape in *. by rewrite Hk, Hn.
  - intros b. rewrite Hrefs. apply HR.
  - intros b c Hb. destruct (r_data _ _ HR b c Hb). rewrite Hc by done. split; [lia|done].
  - done.
  - intros a l Ha. destruct (r_seq _ _ HR a l Ha) as [? HF]. split; [lia|]. eapply Forall_impl; [exact HF|]. simpl. lia.
  - intros b. rewrite Hrefs. intros Hb. rewrite Hc by (by eapply alive_old). by apply (r_live _ _ HR).
Qed.

Lemma piece_ok d s b off sz : coh d s -> (0 < refs s b)%nat -> is_u32 off -> is_u32 sz ->
  (len (content s b) < off + sz /\ CONSTBUFFER_CreateFromOffsetAndSize b off sz s = Done (None, s)) \/
  (off + sz <= len (content s b) /\
   ((exists o, CONSTBUFFER_CreateFromOffsetAndSize b off sz s = Done (None, tick o (S (fails s)) s)) \/
    (exists x s' d', CONSTBUFFER_CreateFromOffsetAndSize b off sz s = Done (Some x, s') /\ coh d' s' /\ framed s s' /\ d ⊆ d' /\
      d' !! x = Some (take (Z.to_nat sz) (drop (Z.to_nat off) (content s b))) /\ forall y, refs s' y = upd (refs s) x (S (refs s x)) y))).
Proof.
  intros Hcoh Hb [Ho0 Ho1] [Hs0 Hs1]. pose proof (c_live _ _ Hcoh b Hb) as Hd. destruct (c_data _ _ Hcoh _ _ Hd) as [Hlt _]. pose proof (c_size _ _ Hcoh b Hlt) as Hmax.
  unfold CONSTBUFFER_CreateFromOffsetAndSize. assert (CONSTBUFFER_GetContent b s = Done (content s b, s)) as Eg by (unfold CONSTBUFFER_GetContent; destruct (refs s b); [lia|done]).
  setoid_rewrite (bind_done _ _ _ _ _ Eg). fold (len (content s b)).
  destruct (decide (off + sz <= len (content s b))) as [Hle|Hgt].
  2:{ left. split; [lia|]. destruct (off >? len (content s b)) eqn:E1; [done|]. destruct (off >? UINT32_MAX - sz) eqn:E2; [done|].
      assert (u32 (off + sz) >? len (content s b) = true) as -> by (rewrite u32_id by lia; lia). done. }
  right. split; [done|]. assert ((off >? len (content s b)) || (off >? UINT32_MAX - sz) || (u32 (off + sz) >? len (content s b)) = false) as -> by (rewrite u32_id by lia; lia).
  case_decide as Hsame.
  - right. destruct Hsame as [-> Hsz]. exists b. eexists (with_refs (upd (refs s) b (S (refs s b))) s), d. rewrite (bind_done _ _ s tt (with_refs (upd (refs s) b (S (refs s b))) s)) by (unfold CONSTBUFFER_IncRef; destruct (refs s b) eqn:E; [lia|done]).
    split; [done|]. split; [|split; [|split_and!]].
    + destruct Hcoh. constructor; simpl; try done. intros x. unfold upd. case_decide; subst; auto.
    + by split_and!.
    + done.
    + rewrite Hd. simpl. rewrite take_ge; [done|]. subst sz. by rewrite len_nat.
    + done.
  - destruct (new_buffer_cases (take (Z.to_nat sz) (drop (Z.to_nat off) (content s b))) s) as [[o E]|[o E]]; rewrite E; [right|left; by exists o].
    assert (refs s (bnext s) = 0)%nat as Hz. { destruct (refs s (bnext s)) eqn:Er; [done|]. assert (0 < refs s (bnext s))%nat as H by lia. apply (c_live _ _ Hcoh) in H. apply (c_data _ _ Hcoh) in H. lia. }
    exists (bnext s). eexists _, (<[bnext s := take (Z.to_nat sz) (drop (Z.to_nat off) (content s b))]> d). split; [reflexivity|]. split; [|split; [|split_and!]]; simpl.
    + constructor; simpl.
      * intros x c [[<- <-]|[Hne Hx]]%lookup_insert_Some; [split; [lia|apply upd_same]|]. destruct (c_data _ _ Hcoh x c Hx). rewrite upd_other by done. split; [lia|done].
      * intros x Hx. destruct (decide (x = bnext s)) as [->|Hne]; [by rewrite lookup_insert, !upd_same|]. rewrite lookup_insert_ne, !upd_other in * by done. by apply (c_live _ _ Hcoh).
      * intros x Hx. destruct (decide (x = bnext s)) as [->|Hne]; [rewrite upd_same; unfold len in *; rewrite take_length, drop_length; lia|]. rewrite upd_other by done. apply (c_size _ _ Hcoh). lia.
    + split_and!; try done; simpl; [lia|]. intros x Hx. by rewrite upd_other by lia.
    + apply insert_subseteq. destruct (d !! bnext s) eqn:Ed; [|done]. apply (c_data _ _ Hcoh) in Ed. lia.
    + by rewrite lookup_insert.
    + intros y. rewrite Hz. done.
Qed.

(** The loop *)
Lemma fill_mid t s0 s o a l si n sb eb nd : R t s0 -> held t o l -> (forall f m, agrees s0 (at_ a f (put_mem nd m) s)) -> buffers nd = InNode a 0 ->
  forall mids i f m, (1 <= i)%nat -> (i + S (length mids) = n)%nat -> (n <= length m)%nat -> (forall j b, mids !! j = Some b -> l !! (si + i + j)%nat = Some b) -> (forall b, b ∈ mids -> 0 < f b)%nat ->
  fill_slice o a si n sb eb i (S (length mids)) (at_ a f (put_mem nd m) s) = Done (tt, at_ a (adds f mids) (put_mem nd (ins i (mids ++ [eb]) m)) s).
Proof.
  intros HR Hh Hag Hnd. induction mids as [|x mids IH]; intros i f m Hi Hn Hm Hl Hf.
  - cbn [fill_slice length]. rewrite decide_False by lia. rewrite decide_True by (simpl in Hn; lia). erewrite bind_done by (apply write_at; [done|simpl in Hn; lia]). done.
  - change (S (length (x :: mids))) with (S (S (length mids))) in *. cbn [fill_slice]. rewrite decide_False by lia. rewrite decide_False by lia.
    erewrite bind_done.
    2:{ erewrite bind_done by (eapply (arr_read t s0); [done|apply Hag|done|]; pose proof (Hl 0%nat x eq_refl) as H0; rewrite Nat.add_0_r in H0; exact H0).
        erewrite bind_done by (apply inc_at, Hf; by left). apply write_at; [done|lia]. }
    etrans; [apply (IH (S i) (upd f x (S (f x))) (<[i := Some x]> m)); [lia|lia|rewrite insert_length; lia| |]|done].
    + intros j b Hj. rewrite <- (Hl (S j) b Hj). f_equal. lia.
    + intros b Hb. unfold upd. case_decide; [lia|]. apply Hf. by right.
Qed.

(** The specification on one buffer and on several *)
Lemma slice_one t b skip keep : slice_bytes t [b] skip keep = [take (Z.to_nat keep) (drop (Z.to_nat skip) (bytes_of t b))] /\ (slice_ok t [b] skip keep <-> skip + keep <= size_of t b).
Proof. done. Qed.
Lemma slice_more t b mid e skip keep :
  slice_bytes t (b :: mid ++ [e]) skip keep = drop (Z.to_nat skip) (bytes_of t b) :: map (bytes_of t) mid ++ [take (Z.to_nat keep) (bytes_of t e)] /\
  (slice_ok t (b :: mid ++ [e]) skip keep <-> skip <= size_of t b /\ keep <= size_of t e).
Proof.
  split.
  - unfold slice_bytes. simpl. rewrite map_app. simpl. rewrite removelast_last, last_last. by destruct (map (bytes_of t) mid).
  - unfold slice_ok. assert (mid ++ [e] <> []) as Hne by (by destruct mid). rewrite last_last. destruct (mid ++ [e]); done.
Qed.
Lemma at_id a n s : nodes s !! a = Some n -> at_ a (refs s) n s = s.
Proof. intros H. unfold at_. rewrite insert_id by done. by destruct s. Qed.
Lemma size_alive t s b : R t s -> (0 < refs s b)%nat -> size_of t b = len (content s b) /\ bytes_of t b = content s b.
Proof. intros HR Hb. unfold size_of. by rewrite (bytes_of_alive t s). Qed.
(** The array that was being made is freed *)
Lemma undone t s nd o s' : R t s -> nodes s' = <[nnext s := nd]> (nodes s) -> blocks s' = blocks s -> knext s' = knext s -> nnext s' = S (nnext s) -> (bnext s <= bnext s')%nat ->
  (forall b, refs s' b = refs s b) -> (forall b, (b < bnext s)%nat -> content s' b = content s b) -> (forall b, (b < bnext s')%nat -> len (content s' b) <= UINT32_MAX) ->
  exists s'', bind (free_node (nnext s)) (fun _ => ret o) s' = Done (o : option nat, s'') /\ R t s'' /\ fails s'' = fails s'.
Proof.
  intros HR Hn Hk Hkn Hnn Hbn Hr Hc Hsz. destruct (fresh_node t s HR) as [Hf _].
  erewrite bind_done by (unfold free_node; rewrite Hn, lookup_insert, delete_insert by done; reflexivity). eexists. split; [done|]. split; [|done]. apply (R_grow t s); simpl; try done. lia.
Qed.

Section slice.
  Context (t : abs) (s : heap) (a : nat) (l : list nat) (i n skip keep : Z) (HR : R t s) (Hh : held t a l).
  Context (Hi : is_u32 i) (Hn : 1 <= n <= UINT32_MAX) (Hskip : is_u32 skip) (Hkeep : is_u32 keep) (Hin : i + n <= len l).
  Notation sub := (take (Z.to_nat n) (drop (Z.to_nat i) l)).
  Notation goal m := (exists r s' t', m s = Done (r, s') /\ answers (~ slice_ok t sub skip keep) (fails s < fails s')%nat t t' r (fun x => gives_bytes t x (slice_bytes t sub skip keep) t') /\ R t' s').
  Notation nd := (Node 1 n NoFree (InNode (nnext s) 0) []).
  Notation fresh o := (at_ (nnext s) (refs s) (put_mem nd (replicate (Z.to_nat n) None)) (bump o s)).

  Lemma sub_length : length sub = Z.to_nat n.
  Proof. rewrite take_length, drop_length. unfold len in Hin. destruct Hi. lia. Qed.
  Lemma sub_lookup j b : sub !! j = Some b -> l !! (Z.to_nat i + j)%nat = Some b.
  Proof. intros [H _]%lookup_take_Some. by rewrite lookup_drop in H. Qed.
  Lemma sub_alive b : b ∈ sub -> (0 < refs s b)%nat.
  Proof. intros [j Hj]%elem_of_list_lookup. eapply (arr_alive t s a l HR Hh), elem_of_list_lookup_2. by apply sub_lookup. Qed.
  Lemma coh_fresh o : coh (data t) (fresh o).
  Proof. destruct (coh_R t s HR). by constructor. Qed.
  Lemma read_any f m s' : agrees s s' -> nodes s' = nodes s -> blocks s' = blocks s -> forall j b, sub !! j = Some b -> read_buffer a (Z.to_nat i + j) (at_ (nnext s) f m s') = Done (b, at_ (nnext s) f m s').
  Proof.
    intros _ Hn' Hb j b Hj. eapply (arr_read t s); [done| |done|by apply sub_lookup]. split; simpl; [|by rewrite Hb].
    intros a' n' Ha'. exists n'. rewrite Hn', lookup_insert_ne; [done|]. destruct (fresh_node t s HR). congruence.
  Qed.
  Lemma agrees_framed o s' : framed (fresh o) s' -> agrees s s'.
  Proof.
    intros (Hn' & Hb & _). split; rewrite ?Hn', ?Hb; [|done]. intros a' n' Ha'. exists n'. simpl. rewrite lookup_insert_ne; [done|]. destruct (fresh_node t s HR). congruence.
  Qed.
  Lemma read_framed o s' j b : framed (fresh o) s' -> sub !! j = Some b -> read_buffer a (Z.to_nat i + j) s' = Done (b, s').
  Proof. intros Hf Hj. eapply (arr_read t s); [done|by eapply agrees_framed|done|by apply sub_lookup]. Qed.
  Lemma framed_refl s' : framed s' s'.
  Proof. by split_and!. Qed.

  (** All the handles are stored *)
  Lemma all_stored o s' d l' f :
    framed (fresh o) s' -> coh d s' -> data t ⊆ d -> length l' = Z.to_nat n -> map (fun b => d !! b) l' = map Some (slice_bytes t sub skip keep) ->
    (forall y, f y = (refs s y + occ y l')%nat) ->
    exists t', gives_bytes t (nnext s) (slice_bytes t sub skip keep) t' /\ R t' (at_ (nnext s) f (put_mem nd (map Some l')) s').
  Proof.
    intros (Hn' & Hb' & Hnn' & Hkn' & Hf' & Hbn' & Hc') Hcoh Hd Hl' Hmap Hf. simpl in *.
    assert (forall b, b ∈ l' -> is_Some (d !! b)) as Hsome.
    { intros b Hb. apply (elem_of_list_fmap_1 (fun b => d !! b)) in Hb. change (b ∈ l') with (b ∈ l') in *. unfold fmap in Hb. simpl in Hb. fold (map (fun b => d !! b) l') in Hb.
      assert (d !! b ∈ map Some (slice_bytes t sub skip keep)) as H by (rewrite <- Hmap; exact Hb). apply elem_of_list_fmap in H as (c & -> & _). eauto. }
    eexists. split; [exists l', d; split; [done|]; split; [done|]; split; [left; by apply (fresh_node t s)|reflexivity]|].
    simpl. eapply (R_owned t s _ l' d (mine t)); try done; simpl.
    - rewrite Hn', insert_insert. f_equal. f_equal. unfold len. rewrite Hl'. lia.
    - apply (c_size _ _ Hcoh).
    - apply (c_data _ _ Hcoh).
    - intros b. rewrite Hf. intros Hpos. destruct (decide (b ∈ l')) as [Hb|Hb%occ_none].
      + destruct (Hsome b Hb) as [c Hc]. destruct (c_data _ _ Hcoh _ _ Hc) as [_ <-]. done.
      + assert (0 < refs s b)%nat as Hal by lia. pose proof (r_live _ _ HR b Hal) as Hdb. assert (d !! b = Some (content s b)) as -> by (by eapply lookup_weaken).
        f_equal. symmetry. apply Hc'. by eapply alive_old.
    - unfold len. lia.
    - apply Forall_forall. intros b Hb. destruct (Hsome b Hb) as [c Hc]. by eapply (c_data _ _ Hcoh).
    - intros b. rewrite Hf. lia.
  Qed.

  (** One buffer *)
  Lemma slice_single o b : sub = [b] -> n = 1 ->
    exists r s' t', bind (CONSTBUFFER_CreateFromOffsetAndSize b skip keep) (fun x => match x with None => bind (free_node (nnext s)) (fun _ => ret None) | Some x => bind (write_buffer (nnext s) 0 x) (fun _ => ret (Some (nnext s))) end) (fresh o) = Done (r, s') /\
      answers (~ slice_ok t sub skip keep) (fails s < fails s')%nat t t' r (fun x => gives_bytes t x (slice_bytes t sub skip keep) t') /\ R t' s'.
  Proof.
    intros Hsub Hn1. assert (0 < refs s b)%nat as Hb by (apply sub_alive; rewrite Hsub; by left). destruct (size_alive t s b HR Hb) as [Hsz Hby].
    destruct (slice_one t b skip keep) as [Hbytes Hok].
    destruct (piece_ok (data t) (fresh o) b skip keep (coh_fresh o) Hb Hskip Hkeep) as [[Hbad E]|[Hgood [[o' E]|(x & s2 & d & E & Hcoh & Hfr & Hd & Hx & Hrefs)]]]; rewrite (bind_done _ _ _ _ _ E); simpl in *.
    - destruct (undone t s (put_mem nd (replicate (Z.to_nat n) None)) None (fresh o) HR) as (s' & E' & HR' & Hf'); try done; simpl; try lia; [apply (r_size _ _ HR)|].
      exists None, s', t. split; [exact E'|]. split; [|done]. split; [|done]. left. rewrite Hsub, Hok. lia.
    - destruct (undone t s (put_mem nd (replicate (Z.to_nat n) None)) None (tick o' (S (fails s)) (fresh o)) HR) as (s' & E' & HR' & Hf'); try done; simpl; try lia; [apply (r_size _ _ HR)|].
      exists None, s', t. split; [exact E'|]. split; [|done]. split; [|done]. right. simpl in Hf'. lia.
    - destruct (all_stored o s2 d [x] (refs s2) Hfr Hcoh Hd) as (t' & Hg & HR').
      + simpl. lia.
      + rewrite Hsub, Hbytes, Hby. simpl. by rewrite Hx.
      + intros y. rewrite Hrefs. simpl. unfold upd. repeat case_decide; subst; try done; lia.
      + pose proof Hfr as (Hn' & _ & _ & _ & Hf' & _). exists (Some (nnext s)). eexists _, t'. split; [|split; [|exact HR']].
        * rewrite <- (at_id (nnext s) (put_mem nd (replicate (Z.to_nat n) None)) s2) at 1 by (rewrite Hn'; simpl; by rewrite lookup_insert).
          erewrite bind_done by (apply write_at; [done|rewrite replicate_length; lia]). rewrite Hn1. done.
        * simpl. split; [|split; [simpl in Hf'; lia|done]]. rewrite Hsub. intros H. apply H, Hok. lia.
  Qed.
  (** Several *)
  Lemma slice_several o b mid e : sub = b :: mid ++ [e] ->
    exists r s' t', bind (CONSTBUFFER_CreateFromOffsetAndSize b skip (u32 (len (content s b) - skip))) (fun sb =>
      match sb with
      | None => bind (free_node (nnext s)) (fun _ => ret None)
      | Some sb => bind (read_buffer a (Z.to_nat (u32 (i + n - 1)))) (fun final => bind (CONSTBUFFER_CreateFromOffsetAndSize final 0 keep) (fun eb =>
          match eb with
          | None => bind (CONSTBUFFER_DecRef sb) (fun _ => bind (free_node (nnext s)) (fun _ => ret None))
          | Some eb => bind (fill_slice a (nnext s) (Z.to_nat i) (Z.to_nat n) sb eb 0 (Z.to_nat n)) (fun _ => ret (Some (nnext s)))
          end))
      end) (fresh o) = Done (r, s') /\
      answers (~ slice_ok t sub skip keep) (fails s < fails s')%nat t t' r (fun x => gives_bytes t x (slice_bytes t sub skip keep) t') /\ R t' s'.
  Proof.
    intros Hsub. pose proof sub_length as Hlen. assert (Z.to_nat n = length mid + 2)%nat as Hnl by (rewrite <- Hlen, Hsub; simpl; rewrite app_length; simpl; lia).
    assert (0 < refs s b)%nat as Hb by (apply sub_alive; rewrite Hsub; by left). destruct (size_alive t s b HR Hb) as [Hszb Hbyb].
    assert (0 < refs s e)%nat as He by (apply sub_alive; rewrite Hsub; right; apply elem_of_app; right; by left). destruct (size_alive t s e HR He) as [Hsze Hbye].
    assert (forall x, x ∈ mid -> 0 < refs s x)%nat as Hmid by (intros x Hx; apply sub_alive; rewrite Hsub; right; apply elem_of_app; by left).
    destruct (slice_more t b mid e skip keep) as [Hbytes Hok].
    assert (0 <= len (content s b)) as Hnn by (unfold len; lia). assert (len (content s b) <= UINT32_MAX) as Hmaxb by (apply (r_size _ _ HR); by eapply alive_old).
    assert (is_u32 (u32 (len (content s b) - skip))) as Hu32. { unfold is_u32, u32, UINT32_MOD, UINT32_MAX. pose proof (Z.mod_pos_bound (len (content s b) - skip) 4294967296). lia. }
    assert (skip <= len (content s b) -> u32 (len (content s b) - skip) = len (content s b) - skip) as Hu by (intros; destruct Hskip; rewrite u32_id by lia; done).
    destruct (piece_ok (data t) (fresh o) b skip (u32 (len (content s b) - skip)) (coh_fresh o) Hb Hskip Hu32) as [[Hbad E]|[Hgood [[o' E]|(sb & s2 & d2 & E & Hcoh2 & Hfr2 & Hd2 & Hsb & Hrefs2)]]]; rewrite (bind_done _ _ _ _ _ E); simpl in *.
    - destruct (undone t s (put_mem nd (replicate (Z.to_nat n) None)) None (fresh o) HR) as (s' & E' & HR' & Hf'); try done; simpl; try lia; [apply (r_size _ _ HR)|].
      exists None, s', t. split; [exact E'|]. split; [|done]. split; [|done]. left. rewrite Hsub, Hok. intros [Hs _]. rewrite Hu in Hbad by lia. lia.
    - destruct (undone t s (put_mem nd (replicate (Z.to_nat n) None)) None (tick o' (S (fails s)) (fresh o)) HR) as (s' & E' & HR' & Hf'); try done; simpl; try lia; [apply (r_size _ _ HR)|].
      exists None, s', t. split; [exact E'|]. split; [|done]. split; [|done]. right. simpl in Hf'. lia.
    - assert (skip <= len (content s b)) as Hskip'. { destruct (decide (skip <= len (content s b))); [done|]. destruct Hskip, Hu32. lia. }
      rewrite (Hu Hskip') in Hsb. rewrite take_ge in Hsb by (rewrite drop_length; unfold len; lia).
      assert (Z.to_nat (u32 (i + n - 1)) = Z.to_nat i + S (length mid))%nat as Hidx.
      { destruct Hi. assert (len l <= UINT32_MAX) by (destruct (arr_get t s a l HR Hh) as (? & _ & _ & _ & ?); done). rewrite u32_id by lia. lia. }
      rewrite Hidx. erewrite bind_done.
      2:{ eapply (read_framed o); [done|]. rewrite Hsub. simpl. rewrite lookup_app_r by lia. by rewrite Nat.sub_diag. }
      pose proof Hfr2 as (Hn2 & Hb2 & Hnn2 & Hkn2 & Hf2 & Hbn2 & Hc2). simpl in Hn2, Hb2, Hnn2, Hkn2, Hf2, Hbn2, Hc2.
      assert (content s2 e = content s e) as Hce by (apply Hc2; by eapply alive_old).
      assert (0 < refs s2 e)%nat as He2 by (rewrite Hrefs2; unfold upd; case_decide; lia).
      assert (0 < refs s2 sb)%nat as Hsb2 by (rewrite Hrefs2, upd_same; lia).
      destruct (piece_ok d2 s2 e 0 keep Hcoh2 He2 ltac:(unfold is_u32, UINT32_MAX; lia) Hkeep) as [[Hbad E2]|[Hgood2 [[o' E2]|(eb & s3 & d3 & E3 & Hcoh3 & Hfr3 & Hd3 & Heb & Hrefs3)]]].
      + rewrite (bind_done _ _ _ _ _ E2). rewrite (bind_done _ _ _ tt (with_refs (upd (refs s2) sb (pred (refs s2 sb))) s2)) by (unfold CONSTBUFFER_DecRef; destruct (refs s2 sb); [lia|done]).
        destruct (undone t s (put_mem nd (replicate (Z.to_nat n) None)) None (with_refs (upd (refs s2) sb (pred (refs s2 sb))) s2) HR) as (s' & E' & HR' & Hf'); try done; simpl.
        * intros y. destruct (decide (y = sb)) as [->|]; [rewrite upd_same, Hrefs2, upd_same; done|]. rewrite upd_other, Hrefs2, upd_other by done. done.
        * apply (c_size _ _ Hcoh2).
        * exists None, s', t. split; [exact E'|]. split; [|done]. split; [|done]. left. rewrite Hsub, Hok, Hsze, <- Hce. lia.
      + rewrite (bind_done _ _ _ _ _ E2). rewrite (bind_done _ _ _ tt (with_refs (upd (refs s2) sb (pred (refs s2 sb))) (tick o' (S (fails s2)) s2))) by (unfold CONSTBUFFER_DecRef; simpl; destruct (refs s2 sb); [lia|done]).
        destruct (undone t s (put_mem nd (replicate (Z.to_nat n) None)) None (with_refs (upd (refs s2) sb (pred (refs s2 sb))) (tick o' (S (fails s2)) s2)) HR) as (s' & E' & HR' & Hf'); try done; simpl.
        * intros y. destruct (decide (y = sb)) as [->|]; [rewrite upd_same, Hrefs2, upd_same; done|]. rewrite upd_other, Hrefs2, upd_other by done. done.
        * apply (c_size _ _ Hcoh2).
        * exists None, s', t. split; [exact E'|]. split; [|done]. split; [|done]. right. simpl in Hf'. lia.
      + rewrite (bind_done _ _ _ _ _ E3).
        assert (framed (fresh o) s3) as Hfr.
        { destruct Hfr3 as (Hn3 & Hb3 & Hnn3 & Hkn3 & Hf3 & Hbn3 & Hc3). split_and!; simpl; try congruence; [lia|]. intros y Hy. rewrite Hc3 by lia. by apply Hc2. }
        destruct (all_stored o s3 d3 (sb :: mid ++ [eb]) (adds (refs s3) mid) Hfr Hcoh3) as (t' & Hg & HR').
        * by etrans.
        * simpl. rewrite app_length. simpl. lia.
        * rewrite Hsub, Hbytes. simpl. rewrite !map_app. simpl. rewrite Heb, Hce, Hbye. simpl. rewrite Hbyb. f_equal; [by eapply lookup_weaken|]. f_equal.
          rewrite map_map. apply map_ext_in. intros x Hx%elem_of_list_In. rewrite (bytes_of_alive t s x HR) by auto. eapply lookup_weaken; [|exact Hd3]. eapply lookup_weaken; [|exact Hd2]. apply (r_live _ _ HR). auto.
        * intros y. rewrite adds_at, Hrefs3. simpl. rewrite occ_app. simpl. unfold upd. rewrite !Hrefs2. unfold upd. repeat case_decide; subst; try done; lia.
        * pose proof Hfr as (Hn' & Hb' & _ & _ & Hf' & _). exists (Some (nnext s)). eexists _, t'. split; [|split; [|exact HR']].
          -- rewrite <- (at_id (nnext s) (put_mem nd (replicate (Z.to_nat n) None)) s3) at 1 by (rewrite Hn'; simpl; by rewrite lookup_insert).
             replace (Z.to_nat n) with (S (S (length mid))) at 2 by lia. cbn [fill_slice]. erewrite bind_done.
             2:{ rewrite decide_True by done. erewrite bind_done by (apply write_at; [done|rewrite replicate_length; lia]).
                 apply (fill_mid t s s3 a (nnext s) l (Z.to_nat i) (Z.to_nat n) sb eb nd HR Hh) with (mids := mid); [| |lia|lia|rewrite insert_length, replicate_length; lia| |].
                 - intros f m. split; simpl; [|by rewrite Hb']. intros a' n' Ha'. exists n'. rewrite Hn'. simpl. rewrite insert_insert, lookup_insert_ne; [done|]. destruct (fresh_node t s HR). congruence.
                 - done.
                 - intros j x Hj. replace (Z.to_nat i + 1 + j)%nat with (Z.to_nat i + S j)%nat by lia. apply sub_lookup. rewrite Hsub. simpl. by apply lookup_app_l_Some.
                 - intros x Hx%Hmid. rewrite Hrefs3. unfold upd. rewrite !Hrefs2. unfold upd. repeat case_decide; lia. }
             match goal with |- context [ins 1 ?q ?m] => change (ins 1 q m) with (ins 0 (sb :: q) (replicate (Z.to_nat n) None)) end.
             replace (Z.to_nat n) with (length (sb :: mid ++ [eb])) by (simpl; rewrite app_length; simpl; lia). by rewrite ins_full.
          -- simpl. split; [|split; [simpl in Hf'; lia|done]]. rewrite Hsub. intros H. apply H, Hok. rewrite Hszb, Hsze, <- Hce. lia.
  Qed.
End slice.

Lemma last_size t s a l : R t s -> held t a l -> l <> [] -> exists b, l !! Nat.pred (length l) = Some b /\ read_buffer a (Z.to_nat (u32 (len l - 1))) s = Done (b, s) /\ CONSTBUFFER_GetContent b s = Done (bytes_of t b, s).
Proof.
  intros HR Hh Hne. destruct (lookup_lt_is_Some_2 l (Nat.pred (length l))) as [b Hb]; [destruct l; simpl in *; [done|lia]|]. exists b. split; [done|].
  destruct (arr_get t s a l HR Hh) as (_ & _ & _ & _ & Hmax). assert (0 < length l)%nat by (destruct l; [done|simpl; lia]).
  split; [|by eapply held_content]. assert (Z.to_nat (u32 (len l - 1)) = Nat.pred (length l)) as -> by (unfold len in *; rewrite u32_id; lia).
  eapply (arr_read t s); [done|apply agrees_refl|done|done].
Qed.
Lemma whole_slice t s a l b : R t s -> held t a l -> l !! Nat.pred (length l) = Some b ->
  slice_ok t l 0 (size_of t b) /\ slice_bytes t l 0 (size_of t b) = map (bytes_of t) l.
Proof.
  intros HR Hh Hb. destruct l as [|x l]; [done|]. destruct l as [|e mid _] using rev_ind.
  - simpl in Hb. injection Hb as ->. destruct (slice_one t b 0 (size_of t b)) as [-> Hok]. split; [apply Hok; lia|]. simpl. rewrite take_ge; [done|]. rewrite drop_0; unfold size_of; lia.
  - simpl in Hb. rewrite app_length in Hb. simpl in Hb. replace (length mid + 1)%nat with (S (length mid)) in Hb by lia. simpl in Hb. rewrite lookup_app_r, Nat.sub_diag in Hb by lia. simpl in Hb. injection Hb as ->.
    destruct (slice_more t x mid b 0 (size_of t b)) as [-> Hok]. split; [apply Hok; unfold size_of; lia|]. simpl. rewrite map_app. simpl. rewrite take_ge; [done|]. unfold size_of. lia.
Qed.
Lemma slice_done t s a l i n skip keep : R t s -> held t a l -> is_u32 i -> 1 <= n <= UINT32_MAX -> is_u32 skip -> is_u32 keep -> i + n <= len l ->
  exists r s' t', constbuffer_array_create_from_buffer_offset_and_count (Some a) i n skip keep s = Done (r, s') /\
    answers (~ slice_ok t (take (Z.to_nat n) (drop (Z.to_nat i) l)) skip keep) (fails s < fails s')%nat t t' r
            (fun x => gives_bytes t x (slice_bytes t (take (Z.to_nat n) (drop (Z.to_nat i) l)) skip keep) t') /\ R t' s'.
Proof.
  intros HR Hh Hi Hn Hskip Hkeep Hin. destruct (arr_get t s a l HR Hh) as (na & Hget & Hna & Hc & Hmax).
  assert (l <> []) as Hne by (intros ->; destruct Hi; unfold len in Hin; simpl in Hin; lia).
  unfold constbuffer_array_create_from_buffer_offset_and_count. setoid_rewrite (bind_done _ _ _ _ _ Hget). rewrite Hc.
  pose proof Hi as [Hi0 Hi1]. assert ((i >? len l) || (n >? u32 (len l - i)) = false) as -> by (rewrite u32_id by lia; lia).
  destruct (last_size t s a l HR Hh Hne) as (z & Hz & Hrz & Hgz). setoid_rewrite (bind_done _ _ _ _ _ Hrz). setoid_rewrite (bind_done _ _ _ _ _ Hgz). case_decide as Hall.
  - destruct Hall as (-> & -> & Hk). fold (size_of t z) in Hk. subst keep. assert (i = 0) as -> by lia.
    assert (take (Z.to_nat (len l)) (drop (Z.to_nat 0) l) = l) as ->. { change (Z.to_nat 0) with 0%nat. rewrite drop_0, len_nat. by apply firstn_all2. }
    destruct (whole_slice t s a l z HR Hh Hz) as [Hok Hby]. destruct (makes_same t s a l HR Hh) as [[o E]|(x & s' & t' & E & Hg & HR' & Hf)].
    + exfalso. destruct (inc_ok t s a l HR Hh) as (s' & E' & _). rewrite (bind_done _ _ _ _ _ E') in E. done.
    + exists (Some x), s', t'. split; [exact E|]. split; [|done]. simpl. split_and!; [tauto|lia|]. exists l, (data t). split; [done|]. split.
      * rewrite Hby, map_map. apply map_ext_in. intros b Hb%elem_of_list_In. destruct (proj1 (elem_of_list_lookup _ _) Hb) as [j Hj]. by eapply held_content.
      * by destruct t.
  - match goal with |- context [new_node ?r ?c ?f] => destruct (new_node_cases r c f s) as [[o E]|[o E]] end; setoid_rewrite (bind_done _ _ _ _ _ E).
    2:{ eexists None, _, t. split; [reflexivity|]. split; [|by apply R_tick]. split; [right; simpl; lia|done]. }
    cbn beta iota. change (with_node _ o s) with (at_ (nnext s) (refs s) (put_mem (Node 1 n NoFree (InNode (nnext s) 0) []) (replicate (Z.to_nat n) None)) (bump o s)).
    set (sub := take (Z.to_nat n) (drop (Z.to_nat i) l)). pose proof (sub_length l i n Hi Hn Hin) as Hlen. fold sub in Hlen.
    destruct sub as [|b sub'] eqn:Hsub; [simpl in Hlen; lia|].
    assert (forall f m, read_buffer a (Z.to_nat i) (at_ (nnext s) f m (bump o s)) = Done (b, at_ (nnext s) f m (bump o s))) as Hfirst.
    { intros f m. eapply (arr_read t s); [done|by eapply (agrees_new t)|done|]. rewrite <- (Nat.add_0_r (Z.to_nat i)). apply (sub_lookup l i n). fold sub. by rewrite Hsub. }
    case_decide as H1.
    + setoid_rewrite (bind_done _ _ _ _ _ (Hfirst _ _)). rewrite <- Hsub. destruct sub' as [|b' sub']; [|simpl in Hlen; lia]. by apply (slice_single t s a l i n skip keep).
    + destruct sub' as [|e mid _] using rev_ind; [simpl in Hlen; lia|].
      setoid_rewrite (bind_done _ _ _ _ _ (Hfirst _ _)). assert (0 < refs s b)%nat as Hb. { apply (sub_alive t s a l i n HR Hh). fold sub. rewrite Hsub. by left. }
      assert (forall f m, (0 < f b)%nat -> CONSTBUFFER_GetContent b (at_ (nnext s) f m (bump o s)) = Done (content s b, at_ (nnext s) f m (bump o s))) as Hgc.
      { intros f m Hf. unfold CONSTBUFFER_GetContent, at_. simpl. destruct (f b); [lia|done]. }
      setoid_rewrite (bind_done _ _ _ _ _ (Hgc _ _ Hb)). rewrite <- Hsub. by apply (slice_several t s a l i n skip keep HR Hh Hi Hn Hskip Hkeep Hin o b mid e).
Qed.
Lemma sim_slice a i n skip keep : sim (Slice a i n skip keep).
Proof.
  intros t s HR (Hi & Hn & Hskip & Hkeep & Ha). destruct a as [a|]; [|by_refuses; [by intros (? & ? & ? & _)|done]]. destruct Ha as [l Hh].
  pose proof (fun P => of_array_held t (Some a) a l P Hh eq_refl) as Hof. destruct (decide (i + n <= len l)) as [Hin|Hin].
  - destruct (slice_done t s a l i n skip keep HR Hh Hi Hn Hskip Hkeep Hin) as (r & s' & t' & E & Hans & HR'). exists (RHandle r), s', t'. cbn [run]. rewrite (bind_done _ _ _ _ _ E).
    split; [done|]. split; [|done]. simpl. destruct r as [x|]; simpl in *.
    + destruct Hans as (Hok & Hf & Hg). rewrite !Hof. split_and!; [|done|done]. intros H. apply Hok. intros Hs. by apply H.
    + destruct Hans as [[Hbad|Hf] ->]; (split; [|done]); [left|by right]. rewrite Hof. tauto.
  - by_refuses; [rewrite Hof; tauto|]. destruct (arr_get t s a l HR Hh) as (na & Hget & Hna & Hc & Hmax). unfold refuses, constbuffer_array_create_from_buffer_offset_and_count.
    rewrite (bind_done _ _ _ _ _ Hget), Hc. destruct (i >? len l) eqn:E; [done|]. destruct Hi. assert (n >? u32 (len l - i) = true) as -> by (rewrite u32_id by lia; lia). done.
Qed.
