(** How a heap stores what the specification of constbuffer_array speaks of, and how the primitives act on it. *)
From Verif Require Import Common CbaModel Tally CbaSpec.
Local Open Scope Z_scope.

Lemma bind_done {S A B} (m : M S A) (k : A -> M S B) s x s' : m s = Done (x, s') -> bind m k s = k x s'.
Proof. intros H. unfold bind. by rewrite H. Qed.

Lemma upd_same {A} (f : nat -> A) i x : upd f i x i = x.
Proof. unfold upd. by rewrite decide_True. Qed.
Lemma upd_other {A} (f : nat -> A) i j x : j <> i -> upd f i x j = f j.
Proof. intros. unfold upd. by rewrite decide_False. Qed.

(** The handles that are stored in the buffers_memory of an array *)
Notation stored n := (omap (fun x : option nat => x) (buffers_memory n)).
Definition view_of (p : nat) (n : node) : nat := match custom_free n with FreeView q => if decide (q = p) then 1%nat else 0%nat | _ => 0%nat end.

Notation kept b s := (tally (fun _ n => occ b (stored n)) (nodes s)).
Notation parked b s := (tally (fun _ c => occ b (bufs_in c)) (blocks s)).
Notation views a s := (tally (fun _ n => view_of a n) (nodes s)).
Notation aparked a s := (tally (fun _ c => occ a (arrs_in c)) (blocks s)).
Notation full l spare := (map (fun b => Some (Buf b)) l ++ replicate spare None).

Definition shape (t : abs) (s : heap) (a : nat) (n : node) (l : list nat) : Prop :=
  match custom_free n with
  | NoFree => buffers n = InNode a 0 /\ buffers_memory n = map Some l
  | FreeMoved c => c = a /\ buffers_memory n = [] /\ exists k spare, buffers n = InBlock k 0 /\ blocks s !! k = Some (full l spare) /\ mem t !! k = None
  | FreeView p => (p < a)%nat /\ buffers_memory n = [] /\ exists np lp st, nodes s !! p = Some np /\ seqs t !! p = Some lp /\ buffers n = shift (buffers np) st /\
                  (st + length l <= length lp)%nat /\ l = take (length l) (drop st lp)
  end.

Record R (t : abs) (s : heap) : Prop := {
  r_node : forall a n, nodes s !! a = Some n -> exists l, seqs t !! a = Some l /\ nBuffers n = len l /\ len l <= UINT32_MAX /\ (0 < nref n)%nat /\ shape t s a n l;
  r_buf : forall b, refs s b = (mine t b + kept b s + parked b s)%nat;
  r_arr : forall a n, nodes s !! a = Some n -> nref n = (ours t a + views a s + aparked a s)%nat;
  r_dead : forall a, nodes s !! a = None -> ours t a = 0%nat /\ aparked a s = 0%nat;
  r_mem : forall k c, mem t !! k = Some c -> blocks s !! k = Some c;
  r_own : forall k c, blocks s !! k = Some c -> mem t !! k = Some c \/ exists a n, nodes s !! a = Some n /\ custom_free n = FreeMoved a /\ buffers n = InBlock k 0;
  r_uniq : forall a a' n n' k, nodes s !! a = Some n -> nodes s !! a' = Some n' -> custom_free n = FreeMoved a -> custom_free n' = FreeMoved a' ->
           buffers n = InBlock k 0 -> buffers n' = InBlock k 0 -> a = a';
  r_data : forall b c, data t !! b = Some c -> (b < bnext s)%nat /\ content s b = c;
  r_size : forall b, (b < bnext s)%nat -> len (content s b) <= UINT32_MAX;
  r_seq : forall a l, seqs t !! a = Some l -> (a < nnext s)%nat /\ Forall (fun b => (b < bnext s)%nat) l;
  r_blk : forall k c, blocks s !! k = Some c -> (k < knext s)%nat;
  r_live : forall b, (0 < refs s b)%nat -> data t !! b = Some (content s b) }.

(** ** The state after an allocation *)
Definition tick (o : list bool) (f : nat) (s : heap) : heap := Heap (refs s) (content s) (nodes s) (blocks s) (bnext s) (nnext s) (knext s) o f.
Lemma allocate_cases s : (exists o, allocate s = Done (true, tick o (fails s) s)) \/ (exists o, allocate s = Done (false, tick o (S (fails s)) s)).
Proof. unfold allocate. destruct s as [? ? ? ? ? ? ? o f]; simpl. destruct o as [|[] o]; [left; by exists []|left; by exists o|right; by exists o]. Qed.

Lemma R_tick t s o f : R t s -> R t (tick o f s).
Proof. intros []. by constructor. Qed.

Definition with_node (n : node) (o : list bool) (s : heap) : heap :=
  Heap (refs s) (content s) (<[nnext s := n]> (nodes s)) (blocks s) (bnext s) (S (nnext s)) (knext s) o (fails s).
Lemma new_node_cases room count fill s :
  (exists o, new_node room count fill s = Done (Some (nnext s), with_node (Node 1 count (fill (nnext s)).1 (fill (nnext s)).2 (replicate room None)) o s)) \/
  (exists o, new_node room count fill s = Done (None, tick o (S (fails s)) s)).
Proof.
  unfold new_node. destruct (allocate_cases s) as [[o E]|[o E]]; [left|right]; exists o; by rewrite (bind_done _ _ _ _ _ E).
Qed.

(** ** Reading *)
Definition agrees (s s' : heap) : Prop :=
  (forall a n, nodes s !! a = Some n -> exists n', nodes s' !! a = Some n' /\ nBuffers n' = nBuffers n /\ buffers n' = buffers n /\ buffers_memory n' = buffers_memory n) /\
  (forall k c, blocks s !! k = Some c -> blocks s' !! k = Some c).
Lemma agrees_refl s : agrees s s.
Proof. split; eauto 10. Qed.

Lemma read_shift p st i s : read_place (shift p st) i s = read_place p (st + i) s.
Proof. destruct p; simpl; by rewrite Nat.add_assoc. Qed.

Lemma read_ok t s s' : R t s -> agrees s s' -> forall a n l i b, nodes s !! a = Some n -> seqs t !! a = Some l -> l !! i = Some b -> read_place (buffers n) i s' = Done (b, s').
Proof.
  intros HR [Hn Hk] a. induction (lt_wf a) as [a _ IH]. intros n l i b Ha Hl Hi.
  destruct (r_node _ _ HR a n Ha) as (l' & Hl' & _ & _ & _ & Hs). simplify_eq. unfold shape in Hs. destruct (custom_free n) as [|c|p].
  - destruct Hs as [-> Hm]. simpl. destruct (Hn a n Ha) as (n' & -> & _ & _ & ->). by rewrite Hm, list_lookup_fmap, Hi.
  - destruct Hs as (-> & _ & k & spare & -> & Hb & _). simpl. rewrite (Hk _ _ Hb). simpl. rewrite lookup_app_l by (rewrite map_length; by eapply lookup_lt_Some).
    by rewrite list_lookup_fmap, Hi.
  - destruct Hs as (Hp & _ & np & lp & st & Hnp & Hlp & -> & Hlen & Ht). rewrite read_shift. eapply IH; eauto.
    rewrite Ht, lookup_take_Some, lookup_drop in Hi. tauto.
Qed.
Lemma read_buffer_ok t s s' a n l i b : R t s -> agrees s s' -> nodes s !! a = Some n -> seqs t !! a = Some l -> l !! i = Some b -> read_buffer a i s' = Done (b, s').
Proof.
  intros HR Hag Ha Hl Hi. unfold read_buffer. destruct Hag as [Hn Hk]. destruct (Hn a n Ha) as (n' & Ha' & ? & Hb & ?).
  rewrite (bind_done _ _ s' n' s') by (unfold get_node; by rewrite Ha'). rewrite Hb. eapply read_ok; eauto. by split.
Qed.

(** ** What is alive *)
Lemma bufs_full l spare : bufs_in (full l spare) = l.
Proof. induction l as [|x l IH]; simpl; [by induction spare|]. unfold bufs_in in *. simpl. by rewrite IH. Qed.
Lemma arrs_full l spare : arrs_in (full l spare) = [].
Proof. induction l as [|x l IH]; simpl; [by induction spare|done]. Qed.
Lemma omap_some (l : list nat) : omap (fun x : option nat => x) (map Some l) = l.
Proof. induction l as [|x l IH]; [done|]. exact (f_equal (cons x) IH). Qed.

Lemma elem_alive t s a n l b : R t s -> nodes s !! a = Some n -> seqs t !! a = Some l -> b ∈ l -> (0 < refs s b)%nat.
Proof.
  intros HR. revert n l b. induction (lt_wf a) as [a _ IH]. intros n l b Ha Hl Hb.
  destruct (r_node _ _ HR a n Ha) as (l' & Hl' & _ & _ & _ & Hs). simplify_eq. unfold shape in Hs. rewrite (r_buf _ _ HR b). destruct (custom_free n) as [|c|p].
  - destruct Hs as [_ Hm]. pose proof (tally_ge (fun _ n => occ b (stored n)) _ _ _ Ha) as H. simpl in H. rewrite Hm, omap_some in H. apply occ_elem in Hb. lia.
  - destruct Hs as (-> & _ & k & spare & _ & Hk & _). pose proof (tally_ge (fun _ c => occ b (bufs_in c)) _ _ _ Hk) as H. simpl in H. rewrite bufs_full in H. apply occ_elem in Hb. lia.
  - destruct Hs as (Hp & _ & np & lp & st & Hnp & Hlp & _ & _ & Ht). rewrite <- (r_buf _ _ HR b). eapply (IH p); eauto. rewrite Ht in Hb.
    eapply elem_of_submseteq; [exact Hb|]. apply sublist_submseteq. etrans; [apply sublist_take|apply sublist_drop].
Qed.
Lemma held_node t s a l : R t s -> held t a l -> exists n, nodes s !! a = Some n /\ nBuffers n = len l /\ len l <= UINT32_MAX /\ (0 < nref n)%nat.
Proof.
  intros HR [Ho Hl]. destruct (nodes s !! a) as [n|] eqn:Ha; [|destruct (r_dead _ _ HR a Ha); lia].
  destruct (r_node _ _ HR a n Ha) as (l' & Hl' & ? & ? & ? & _). simplify_eq. eauto.
Qed.
Lemma usable_alive t s b : R t s -> usable t b -> (0 < refs s b)%nat.
Proof.
  intros HR [H|(a & l & Ho & Hl & Hb)]; [rewrite (r_buf _ _ HR b); lia|].
  destruct (held_node t s a l HR) as (n & Ha & _); [done|]. by eapply elem_alive.
Qed.
Lemma alive_old t s b : R t s -> (0 < refs s b)%nat -> (b < bnext s)%nat.
Proof. intros HR Hb%(r_live _ _ HR). by eapply (r_data _ _ HR). Qed.
Lemma fresh_node t s : R t s -> nodes s !! nnext s = None /\ seqs t !! nnext s = None.
Proof.
  intros HR. assert (seqs t !! nnext s = None) as Hs.
  { destruct (seqs t !! nnext s) as [l|] eqn:E; [|done]. destruct (r_seq _ _ HR _ _ E); lia. }
  split; [|done]. destruct (nodes s !! nnext s) as [n|] eqn:E; [|done]. destruct (r_node _ _ HR _ _ E) as (l & ? & _). congruence.
Qed.
Lemma fresh_ours t s : R t s -> ours t (nnext s) = 0%nat /\ aparked (nnext s) s = 0%nat /\ views (nnext s) s = 0%nat.
Proof.
  intros HR. destruct (fresh_node t s HR) as [Hn Hs]. destruct (r_dead _ _ HR _ Hn). split_and!; [done|done|].
  apply tally_zero. intros a n Ha. destruct (r_node _ _ HR _ _ Ha) as (l & _ & _ & _ & _ & Hsh). unfold shape in Hsh. unfold view_of. destruct (custom_free n) as [| |p]; [done|done|].
  destruct Hsh as (_ & _ & np & _ & _ & Hp & _). case_decide; [|done]. subst. congruence.
Qed.
Lemma bytes_of_alive t s b : R t s -> (0 < refs s b)%nat -> bytes_of t b = content s b.
Proof. intros HR Hb. unfold bytes_of. by rewrite (r_live _ _ HR). Qed.
Lemma content_ok t s b : R t s -> (0 < refs s b)%nat -> CONSTBUFFER_GetContent b s = Done (bytes_of t b, s).
Proof. intros HR Hb. rewrite (bytes_of_alive t s) by done. unfold CONSTBUFFER_GetContent. destruct (refs s b); [lia|done]. Qed.

(** ** An array is added; the references in it come from new buffers, from counts that were raised, or from the user. *)
Lemma R_owned t s s' l d m :
  R t s -> nodes s' = <[nnext s := Node 1 (len l) NoFree (InNode (nnext s) 0) (map Some l)]> (nodes s) -> blocks s' = blocks s -> knext s' = knext s -> nnext s' = S (nnext s) ->
  (bnext s <= bnext s')%nat -> (forall b, (b < bnext s')%nat -> len (content s' b) <= UINT32_MAX) ->
  (forall b c, d !! b = Some c -> (b < bnext s')%nat /\ content s' b = c) ->
  (forall b, (0 < refs s' b)%nat -> d !! b = Some (content s' b)) -> len l <= UINT32_MAX -> Forall (fun b => (b < bnext s')%nat) l ->
  (forall b, (refs s' b + mine t b = refs s b + occ b l + m b)%nat) ->
  R (Abs d (<[nnext s := l]> (seqs t)) m (upd (ours t) (nnext s) (S (ours t (nnext s)))) (mem t)) s'.
Proof.
  intros HR Hn Hk Hkn Hnn Hbn Hsz Hd Hlive Hlen Hall Hrefs. destruct (fresh_node t s HR) as [Hf Hfs]. destruct (fresh_ours t s HR) as (Ho & Hap & Hv).
  constructor; simpl; rewrite ?Hn, ?Hk, ?Hkn, ?Hnn; try done.
  - intros a n [[<- <-]|[Hne Ha]]%lookup_insert_Some.
    + exists l. rewrite lookup_insert. split_and!; try done. simpl. lia.
    + destruct (r_node _ _ HR a n Ha) as (l' & Hl' & ? & ? & ? & Hs). exists l'. rewrite lookup_insert_ne by done. split_and!; try done.
      unfold shape in *. destruct (custom_free n) as [|c|p]; [done|by rewrite Hk|]. destruct Hs as (? & ? & np & lp & st & Hnp & Hlp & ? & ? & ?).
      split_and!; [done|done|]. exists np, lp, st. simpl. rewrite Hn, !lookup_insert_ne by congruence. by split_and!.
  - intros b. pose proof (r_buf _ _ HR b) as Hb. rewrite tally_insert by done. simpl. rewrite omap_some. specialize (Hrefs b). lia.
  - intros a n Ha. rewrite tally_insert by done. unfold view_of at 1. simpl. apply lookup_insert_Some in Ha as [[<- <-]|[Hne Ha]].
    + rewrite upd_same. simpl. lia.
    + rewrite upd_other by done. pose proof (r_arr _ _ HR a n Ha). lia.
  - intros a [Ha Hne]%lookup_insert_None. rewrite upd_other by done. by apply (r_dead _ _ HR).
  - apply (r_mem _ _ HR).
  - intros k c Hc. destruct (r_own _ _ HR k c Hc) as [|(a & n & Ha & ?)]; [by left|right]. exists a, n. rewrite lookup_insert_ne; [done|congruence].
  - intros a a' n n' k [[<- <-]|[? Ha]]%lookup_insert_Some [[<- <-]|[? Ha']]%lookup_insert_Some; try done. by apply (r_uniq _ _ HR).
  - intros a l' [[<- <-]|[Hne Ha]]%lookup_insert_Some; [split; [lia|done]|]. destruct (r_seq _ _ HR _ _ Ha) as [? HF]. split; [lia|].
    eapply Forall_impl; [exact HF|]. simpl. lia.
  - apply (r_blk _ _ HR).
Qed.

(** ** Other changes of the heap *)
Lemma R_same t t' s : R t s -> data t' = data t -> seqs t' = seqs t -> mem t' = mem t -> (forall b, mine t' b = mine t b) -> (forall a, ours t' a = ours t a) -> R t' s.
Proof.
  intros HR Hd Hs Hm Hmi Ho. destruct HR. constructor; rewrite ?Hd, ?Hs, ?Hm; try done.
  - intros a n Ha. destruct (r_node0 a n Ha) as (l & ? & ? & ? & ? & Hsh). exists l. split_and!; try done. unfold shape in *. by rewrite Hs, Hm.
  - intros b. by rewrite Hmi.
  - intros a n Ha. rewrite Ho. eauto.
  - intros a Ha. rewrite Ho. eauto.
Qed.

Lemma R_refs t s s' m :
  R t s -> nodes s' = nodes s -> blocks s' = blocks s -> knext s' = knext s -> nnext s' = nnext s -> bnext s' = bnext s -> content s' = content s ->
  (forall b, (0 < refs s' b)%nat -> (0 < refs s b)%nat) -> (forall b, (refs s' b + mine t b = refs s b + m b)%nat) ->
  R (Abs (data t) (seqs t) m (ours t) (mem t)) s'.
Proof.
  intros [] Hn Hk Hkn Hnn Hbn Hc Hlive Hrefs. constructor; simpl; rewrite ?Hn, ?Hk, ?Hkn, ?Hnn, ?Hbn, ?Hc; try done.
  - intros a n Ha. destruct (r_node0 a n Ha) as (l & ? & ? & ? & ? & Hsh). exists l. split_and!; try done. unfold shape in *. simpl. by rewrite Hk, Hn.
  - intros b. specialize (Hrefs b). rewrite r_buf0 in Hrefs. lia.
  - intros b Hb. by apply r_live0, Hlive.
Qed.

Lemma R_buffer t s s' c :
  R t s -> nodes s' = nodes s -> blocks s' = blocks s -> knext s' = knext s -> nnext s' = nnext s -> bnext s' = S (bnext s) -> content s' = upd (content s) (bnext s) c ->
  len c <= UINT32_MAX -> refs s' = upd (refs s) (bnext s) 1%nat ->
  R (Abs (<[bnext s := c]> (data t)) (seqs t) (upd (mine t) (bnext s) 1%nat) (ours t) (mem t)) s'.
Proof.
  intros HR Hn Hk Hkn Hnn Hbn Hc Hlen Hrefs.
  assert (refs s (bnext s) = 0)%nat as Hz. { destruct (refs s (bnext s)) eqn:E; [done|]. pose proof (alive_old _ _ (bnext s) HR). lia. }
  pose proof (r_buf _ _ HR (bnext s)) as Hb0. rewrite Hz in Hb0.
  destruct HR. constructor; simpl; rewrite ?Hn, ?Hk, ?Hkn, ?Hnn, ?Hbn, ?Hc, ?Hrefs; try done.
  - intros a n Ha. destruct (r_node0 a n Ha) as (l & ? & ? & ? & ? & Hsh). exists l. split_and!; try done. unfold shape in *. simpl. by rewrite Hk, Hn.
  - intros b. destruct (decide (b = bnext s)) as [->|Hne]; [rewrite !upd_same; lia|]. rewrite !upd_other by done. apply r_buf0.
  - intros b c' [[<- <-]|[Hne Hb]]%lookup_insert_Some; [split; [lia|apply upd_same]|]. destruct (r_data0 b c' Hb). rewrite upd_other by done. split; [lia|done].
  - intros b Hb. destruct (decide (b = bnext s)) as [->|Hne]; [by rewrite upd_same|]. rewrite upd_other by done. apply r_size0. lia.
  - intros a l Ha. destruct (r_seq0 a l Ha) as [? HF]. split; [done|]. eapply Forall_impl; [exact HF|]. simpl. lia.
  - intros b. destruct (decide (b = bnext s)) as [->|Hne]; [by rewrite lookup_insert, !upd_same|]. rewrite lookup_insert_ne, !upd_other by done. apply r_live0.
Qed.

Lemma tally_alter {A} (f : nat -> A -> nat) m k o : (tally f (partial_alter (fun _ => o) k m) + from_option (f k) 0 (m !! k) = tally f m + from_option (f k) 0 o)%nat.
Proof.
  destruct o as [y|].
  - change (partial_alter _ k m) with (<[k := y]> m). destruct (m !! k) as [x|] eqn:E; simpl; [by apply tally_update|]. rewrite tally_insert by done. lia.
  - change (partial_alter _ k m) with (delete k m). destruct (m !! k) as [x|] eqn:E; simpl; [rewrite (tally_delete f m k x E); lia|]. by rewrite delete_notin.
Qed.

(** A block of the user is made, changed or freed; references move between it and the user. *)
Lemma R_block t s s' k oc m o :
  R t s -> mem t !! k = blocks s !! k -> nodes s' = nodes s -> blocks s' = partial_alter (fun _ => oc) k (blocks s) -> (knext s <= knext s')%nat -> (k < knext s')%nat ->
  nnext s' = nnext s -> bnext s' = bnext s -> content s' = content s -> refs s' = refs s ->
  (forall b, (m b + from_option (fun c => occ b (bufs_in c)) 0 oc = mine t b + from_option (fun c => occ b (bufs_in c)) 0 (blocks s !! k))%nat) ->
  (forall a, (o a + from_option (fun c => occ a (arrs_in c)) 0 oc = ours t a + from_option (fun c => occ a (arrs_in c)) 0 (blocks s !! k))%nat) ->
  R (Abs (data t) (seqs t) m o (partial_alter (fun _ => oc) k (mem t))) s'.
Proof.
  intros HR Hmk Hn Hk Hkn Hkk Hnn Hbn Hc Hr Hm Ho.
  pose proof (fun b => tally_alter (fun _ c => occ b (bufs_in c)) (blocks s) k oc) as HTb. pose proof (fun b => tally_alter (fun _ c => occ b (arrs_in c)) (blocks s) k oc) as HTa.
  destruct HR. constructor; simpl; rewrite ?Hn, ?Hk, ?Hnn, ?Hbn, ?Hc, ?Hr; try done.
  - intros a n Ha. destruct (r_node0 a n Ha) as (l & ? & ? & ? & ? & Hsh). exists l. split_and!; try done. unfold shape in *. simpl. rewrite Hk, Hn. destruct (custom_free n) as [|c|p]; [done| |done].
    destruct Hsh as (? & ? & k' & spare & ? & Hb & Hmm). split_and!; [done|done|]. exists k', spare. rewrite !lookup_partial_alter_ne by congruence. done.
  - intros b. specialize (HTb b). specialize (Hm b). rewrite r_buf0. lia.
  - intros a n Ha. specialize (HTa a). specialize (Ho a). rewrite (r_arr0 _ _ Ha). lia.
  - intros a Ha. specialize (HTa a). specialize (Ho a). destruct (r_dead0 a Ha) as [Hz1 Hz2].
    assert (from_option (fun c => occ a (arrs_in c)) 0 (blocks s !! k) = 0)%nat.
    { destruct (blocks s !! k) as [c|] eqn:E; [|done]. simpl. pose proof (tally_ge (fun _ c => occ a (arrs_in c)) _ _ _ E). simpl in *. lia. }
    lia.
  - intros k' c. destruct (decide (k' = k)) as [->|Hne]; [by rewrite !lookup_partial_alter|]. rewrite !lookup_partial_alter_ne by done. apply r_mem0.
  - intros k' c. destruct (decide (k' = k)) as [->|Hne]; [rewrite !lookup_partial_alter; by left|]. rewrite !lookup_partial_alter_ne by done. apply r_own0.
  - intros k' c. destruct (decide (k' = k)) as [->|Hne]; [done|]. rewrite !lookup_partial_alter_ne by done. intros ?%r_blk0. lia.
Qed.

(** An array made of a block of the user *)
Lemma R_moved t s s' k l spare :
  R t s -> mem t !! k = Some (full l spare) -> len l <= UINT32_MAX ->
  nodes s' = <[nnext s := Node 1 (len l) (FreeMoved (nnext s)) (InBlock k 0) []]> (nodes s) -> blocks s' = blocks s -> knext s' = knext s -> nnext s' = S (nnext s) ->
  bnext s' = bnext s -> content s' = content s -> refs s' = refs s -> 
  R (Abs (data t) (<[nnext s := l]> (seqs t)) (mine t) (upd (ours t) (nnext s) (S (ours t (nnext s)))) (delete k (mem t))) s'.
Proof.
  intros HR Hm Hlen Hn Hk Hkn Hnn Hbn Hc Hrefs. destruct (fresh_node t s HR) as [Hf Hfs]. destruct (fresh_ours t s HR) as (Ho & Hap & Hv).
  pose proof (r_mem _ _ HR _ _ Hm) as Hbk. 
  assert (Forall (fun b => (b < bnext s)%nat) l) as Hall.
  { apply Forall_forall. intros b Hb. apply (alive_old _ _ _ HR). rewrite (r_buf _ _ HR b). pose proof (tally_ge (fun _ c => occ b (bufs_in c)) _ _ _ Hbk) as H. simpl in H. rewrite bufs_full in H. apply occ_elem in Hb. lia. }
  constructor; simpl; rewrite ?Hn, ?Hk, ?Hkn, ?Hnn, ?Hbn, ?Hc, ?Hrefs; try by apply HR.
  - intros a n [[<- <-]|[Hne Ha]]%lookup_insert_Some.
    + exists l. rewrite lookup_insert. split_and!; try done; simpl; [lia|]. unfold shape. simpl. rewrite Hk. split_and!; [done|done|]. exists k, spare. by rewrite lookup_delete.
    + destruct (r_node _ _ HR a n Ha) as (l' & Hl' & ? & ? & ? & Hs). exists l'. rewrite lookup_insert_ne by done. split_and!; try done.
      unfold shape in *. destruct (custom_free n) as [|c|p]; [done| |].
      * destruct Hs as (? & ? & k' & sp & ? & Hb & Hmm). split_and!; [done|done|]. exists k', sp. simpl. rewrite Hk, lookup_delete_ne by congruence. done.
      * destruct Hs as (? & ? & np & lp & st & Hnp & Hlp & ? & ? & ?).
        split_and!; [done|done|]. exists np, lp, st. simpl. rewrite Hn, !lookup_insert_ne by congruence. by split_and!.
  - intros b. pose proof (r_buf _ _ HR b) as Hb. rewrite tally_insert by done. simpl. lia.
  - intros a n Ha. rewrite tally_insert by done. unfold view_of at 1. simpl. apply lookup_insert_Some in Ha as [[<- <-]|[Hne Ha]].
    + rewrite upd_same. simpl. lia.
    + rewrite upd_other by done. pose proof (r_arr _ _ HR a n Ha). lia.
  - intros a [Ha Hne]%lookup_insert_None. rewrite upd_other by done. by apply (r_dead _ _ HR).
  - intros k' c [? Hc']%lookup_delete_Some. by apply (r_mem _ _ HR).
  - intros k' c Hc'. destruct (decide (k' = k)) as [->|Hne].
    + right. eexists _, _. rewrite lookup_insert. split; [done|]. done.
    + rewrite lookup_delete_ne by done. destruct (r_own _ _ HR k' c Hc') as [|(a & n & Ha & ?)]; [by left|right]. exists a, n. rewrite lookup_insert_ne; [done|congruence].
  - assert (forall a n k', nodes s !! a = Some n -> custom_free n = FreeMoved a -> buffers n = InBlock k' 0 -> k' <> k) as Hno.
    { intros a n k' Ha Hcf Hb ->. destruct (r_node _ _ HR a n Ha) as (l' & _ & _ & _ & _ & Hs). unfold shape in Hs. rewrite Hcf in Hs. destruct Hs as (_ & _ & k' & sp & ? & _ & ?). congruence. }
    intros a a' n n' k' [[<- <-]|[? Ha]]%lookup_insert_Some [[<- <-]|[? Ha']]%lookup_insert_Some; simpl; try done.
    + intros. exfalso. simplify_eq. eapply Hno; eauto.
    + intros. exfalso. simplify_eq. eapply Hno; eauto.
    + by apply (r_uniq _ _ HR).
  - intros a l' [[<- <-]|[Hne Ha]]%lookup_insert_Some; [split; [lia|done]|]. destruct (r_seq _ _ HR _ _ Ha) as [? HF]. split; [lia|done].
Qed.

(** A reference to an array is added *)
Notation renumber n r := (Node r (nBuffers n) (custom_free n) (buffers n) (buffers_memory n)).
Lemma R_count t s s' a n r o :
  R t s -> nodes s !! a = Some n -> nodes s' = <[a := renumber n r]> (nodes s) -> blocks s' = blocks s -> knext s' = knext s -> nnext s' = nnext s -> bnext s' = bnext s ->
  content s' = content s -> refs s' = refs s -> (0 < r)%nat -> (r + ours t a = nref n + o)%nat ->
  R (Abs (data t) (seqs t) (mine t) (upd (ours t) a o) (mem t)) s'.
Proof.
  intros HR Ha Hn Hk Hkn Hnn Hbn Hc Hrefs Hr Ho.
  assert (forall f : node -> nat, (forall r, f (renumber n r) = f n) -> tally (fun _ n => f n) (<[a := renumber n r]> (nodes s)) = tally (fun _ n => f n) (nodes s)) as Hsame.
  { intros f Hf. pose proof (tally_update (fun _ n => f n) (nodes s) a n (renumber n r) Ha) as H. simpl in H. rewrite (Hf r) in H. lia. }
  constructor; simpl; rewrite ?Hn, ?Hk, ?Hkn, ?Hnn, ?Hbn, ?Hc, ?Hrefs; try by apply HR.
  - intros a' n' Ha'. assert (exists n0, nodes s !! a' = Some n0 /\ n' = renumber n0 (nref n') /\ (0 < nref n')%nat) as (n0 & Ha0 & En & Hp).
    { apply lookup_insert_Some in Ha' as [[<- <-]|[? Ha']]; [by exists n|]. exists n'. split_and!; [done|by destruct n'|]. destruct (r_node _ _ HR _ _ Ha') as (? & ? & ? & ? & ? & ?). done. }
    destruct (r_node _ _ HR a' n0 Ha0) as (l' & Hl' & ? & ? & ? & Hs). exists l'. rewrite En. simpl. split_and!; try done.
    unfold shape in *. simpl. rewrite Hk. destruct (custom_free n0) as [|c|p]; [done|done|].
    destruct Hs as (? & ? & np & lp & st & Hnp & Hlp & ? & ? & ?). split_and!; [done|done|].
    destruct (decide (p = a)) as [->|Hne]; [exists (renumber n r), lp, st|exists np, lp, st]; rewrite Hn.
    + rewrite lookup_insert. simpl. simplify_eq. by split_and!.
    + rewrite lookup_insert_ne by done. by split_and!.
  - intros b. rewrite (Hsame (fun n => occ b (stored n))) by done. apply HR.
  - intros a' n' Ha'. rewrite (Hsame (view_of a')) by done. apply lookup_insert_Some in Ha' as [[<- <-]|[Hne Ha']].
    + rewrite upd_same. simpl. pose proof (r_arr _ _ HR a n Ha). lia.
    + rewrite upd_other by done. by apply (r_arr _ _ HR).
  - intros a' [Ha' Hne]%lookup_insert_None. rewrite upd_other by done. by apply (r_dead _ _ HR).
  - intros k c Hc'. destruct (r_own _ _ HR k c Hc') as [|(a' & n' & Ha' & ? & ?)]; [by left|right]. exists a'. destruct (decide (a' = a)) as [->|Hne].
    + rewrite lookup_insert. simplify_eq. by exists (renumber n r).
    + rewrite lookup_insert_ne by done. by exists n'.
  - assert (forall a' n', <[a:=renumber n r]> (nodes s) !! a' = Some n' -> exists n0, nodes s !! a' = Some n0 /\ custom_free n0 = custom_free n' /\ buffers n0 = buffers n') as Hb.
    { intros a' n' [[<- <-]|[? Ha']]%lookup_insert_Some; [by exists n|by exists n']. }
    intros a1 a2 n1 n2 k (m1 & ? & E1 & F1)%Hb (m2 & ? & E2 & F2)%Hb. rewrite <- E1, <- E2, <- F1, <- F2. by apply (r_uniq _ _ HR).
Qed.

(** A view takes over a reference the user holds to the array it is made from. *)
Lemma R_view t s s' p np lp st count :
  R t s -> nodes s !! p = Some np -> seqs t !! p = Some lp -> (0 < ours t p)%nat -> (st + count <= length lp)%nat ->
  nodes s' = <[nnext s := Node 1 (Z.of_nat count) (FreeView p) (shift (buffers np) st) []]> (nodes s) -> blocks s' = blocks s -> knext s' = knext s -> nnext s' = S (nnext s) ->
  bnext s' = bnext s -> content s' = content s -> refs s' = refs s -> 
  R (Abs (data t) (<[nnext s := take count (drop st lp)]> (seqs t)) (mine t) (upd (upd (ours t) p (pred (ours t p))) (nnext s) 1%nat) (mem t)) s'.
Proof.
  intros HR Hp Hlp Hop Hst Hn Hk Hkn Hnn Hbn Hc Hrefs. destruct (fresh_node t s HR) as [Hf Hfs]. destruct (fresh_ours t s HR) as (Ho & Hap & Hv).
  assert (length (take count (drop st lp)) = count) as Hlen by (rewrite take_length, drop_length; lia).
  destruct (r_seq _ _ HR _ _ Hlp) as [Hpl Hfl]. destruct (r_node _ _ HR p np Hp) as (lp' & Hlp' & _ & Hmax & _). simplify_eq.
  constructor; simpl; rewrite ?Hn, ?Hk, ?Hkn, ?Hnn, ?Hbn, ?Hc, ?Hrefs; try by apply HR.
  - intros a n [[<- <-]|[Hne Ha]]%lookup_insert_Some.
    + exists (take count (drop st lp)). rewrite lookup_insert. unfold len in *. rewrite Hlen. split_and!; try done; [lia|simpl;lia|]. unfold shape. simpl. split_and!; [done|done|].
      exists np, lp, st. rewrite Hn, !lookup_insert_ne, Hlen by congruence. by split_and!.
    + destruct (r_node _ _ HR a n Ha) as (l' & Hl' & ? & ? & ? & Hs). exists l'. rewrite lookup_insert_ne by done. split_and!; try done.
      unfold shape in *. destruct (custom_free n) as [|c|q]; [done|simpl; by rewrite Hk|].
      destruct Hs as (? & ? & np' & lp' & st' & Hnp & Hlp2 & ? & ? & ?).
      split_and!; [done|done|]. exists np', lp', st'. simpl. rewrite Hn, !lookup_insert_ne by congruence. by split_and!.
  - intros b. pose proof (r_buf _ _ HR b) as Hb. rewrite tally_insert by done. simpl. lia.
  - intros a n Ha. rewrite tally_insert by done. unfold view_of at 1. simpl. apply lookup_insert_Some in Ha as [[<- <-]|[Hne Ha]].
    + rewrite upd_same. rewrite decide_False by congruence. simpl. lia.
    + rewrite upd_other by done. pose proof (r_arr _ _ HR a n Ha). destruct (decide (p = a)) as [->|]; [rewrite upd_same; lia|rewrite upd_other by done; lia].
  - intros a [Ha Hne]%lookup_insert_None. rewrite !upd_other by congruence. by apply (r_dead _ _ HR).
  - intros k c Hc'. destruct (r_own _ _ HR k c Hc') as [|(a & n & Ha & ?)]; [by left|right]. exists a, n. rewrite lookup_insert_ne; [done|congruence].
  - intros a a' n n' k [[<- <-]|[? Ha]]%lookup_insert_Some [[<- <-]|[? Ha']]%lookup_insert_Some; try done. by apply (r_uniq _ _ HR).
  - intros a l' [[<- <-]|[Hne Ha]]%lookup_insert_Some; [split; [lia|]|].
    + by apply Forall_take, Forall_drop.
    + destruct (r_seq _ _ HR _ _ Ha) as [? HF]. split; [lia|done].
Qed.

(** An array goes away with its last reference. *)
Lemma R_delete t s s' a n l o :
  R t s -> nodes s !! a = Some n -> seqs t !! a = Some l -> (0 < ours t a)%nat -> nref n = 1%nat ->
  nodes s' = delete a (nodes s) ->
  blocks s' = match custom_free n, buffers n with FreeMoved _, InBlock k _ => delete k (blocks s) | _, _ => blocks s end ->
  knext s' = knext s -> nnext s' = nnext s -> bnext s' = bnext s -> content s' = content s ->
  (forall b, (refs s' b + match custom_free n with FreeView _ => 0 | _ => occ b l end = refs s b)%nat) ->
  (forall x, (o x + (if decide (x = a) then 1 else 0) = ours t x + view_of x n)%nat) ->
  R (Abs (data t) (seqs t) (mine t) o (mem t)) s'.
Proof.
  intros HR Ha Hl Hoa Hr1 Hn Hk Hkn Hnn Hbn Hc Hrefs Ho.
  pose proof (r_arr _ _ HR a n Ha) as Hra. assert (views a s = 0 /\ aparked a s = 0)%nat as [Hv Hap] by lia.
  assert (forall a' n', nodes s !! a' = Some n' -> view_of a n' = 0)%nat as Hnov.
  { intros a' n' Ha'. pose proof (tally_ge (fun _ n => view_of a n) _ _ _ Ha') as H. simpl in H. lia. }
  destruct (r_node _ _ HR a n Ha) as (l' & Hl' & Hlen & Hmax & _ & Hs). simplify_eq.
  (* what happens to the blocks *)
  assert (forall k c, blocks s' !! k = Some c -> blocks s !! k = Some c) as Hsub.
  { intros k c. rewrite Hk. destruct (custom_free n); [done| |done]. destruct (buffers n); [done|]. by intros [_ ?]%lookup_delete_Some. }
  assert (forall k c, mem t !! k = Some c -> blocks s' !! k = Some c) as Hmem.
  { intros k c Hm. pose proof (r_mem _ _ HR _ _ Hm). rewrite Hk. unfold shape in Hs. destruct (custom_free n); [done| |done]. destruct Hs as (_ & _ & k' & sp & -> & _ & Hno).
    by rewrite lookup_delete_ne by congruence. }
  assert (forall a' n' k c, a' <> a -> nodes s !! a' = Some n' -> custom_free n' = FreeMoved a' -> buffers n' = InBlock k 0 -> blocks s !! k = Some c -> blocks s' !! k = Some c) as Hkeep.
  { intros a' n' k c Hne Ha' Hcf Hb Hc'. rewrite Hk. unfold shape in Hs. destruct (custom_free n) eqn:En; [done| |done]. destruct Hs as (-> & _ & k' & sp & Hb' & _ & Hno). rewrite Hb'.
    rewrite lookup_delete_ne; [done|]. intros ->. apply Hne. by eapply (r_uniq _ _ HR). }
  assert (forall b, kept b s' + parked b s' + match custom_free n with FreeView _ => 0 | _ => occ b l end = kept b s + parked b s)%nat as Hb.
  { intros b. rewrite Hn. rewrite (tally_delete (fun _ n => occ b (stored n)) _ _ _ Ha). rewrite Hk. unfold shape in Hs. destruct (custom_free n).
    - destruct Hs as [_ ->]. rewrite omap_some. lia.
    - destruct Hs as (_ & -> & k' & sp & -> & Hbk & _). simpl. rewrite (tally_delete (fun _ c => occ b (bufs_in c)) _ _ _ Hbk), bufs_full. lia.
    - destruct Hs as (_ & -> & _). simpl. lia. }
  assert (forall x, aparked x s' = aparked x s) as Hpa.
  { intros x. rewrite Hk. unfold shape in Hs. destruct (custom_free n); [done| |done]. destruct Hs as (_ & _ & k' & sp & -> & Hbk & _).
    by rewrite (tally_delete (fun _ c => occ x (arrs_in c)) _ _ _ Hbk), arrs_full. }
  assert (forall x, views x s = view_of x n + views x s')%nat as Hvw by (intros x; by rewrite Hn, (tally_delete (fun _ n => view_of x n) _ _ _ Ha)).
  constructor; simpl; rewrite ?Hkn, ?Hnn, ?Hbn, ?Hc; try by apply HR.
  - intros a' n' Ha'. rewrite Hn in Ha'. apply lookup_delete_Some in Ha' as [Hne Ha'].
    destruct (r_node _ _ HR a' n' Ha') as (l' & Hl2 & ? & ? & ? & Hs'). exists l'. split_and!; try done. specialize (Hnov _ _ Ha'). specialize (Hkeep a' n').
    unfold shape in *. unfold view_of in Hnov. destruct (custom_free n') as [|c|p]; [done| |].
    + destruct Hs' as (-> & ? & k & sp & Hb2 & Hc2 & ?). split_and!; [done|done|]. exists k, sp. split_and!; [done| |done]. by eapply Hkeep.
    + destruct Hs' as (? & ? & np & lp & st & ? & ? & ? & ? & ?). split_and!; [done|done|]. exists np, lp, st. rewrite Hn, lookup_delete_ne; [by split_and!|].
      intros ->. by rewrite decide_True in Hnov.
  - intros b. specialize (Hrefs b). specialize (Hb b). pose proof (r_buf _ _ HR b). lia.
  - intros x nx Hx. rewrite Hn in Hx. apply lookup_delete_Some in Hx as [Hne Hx]. specialize (Ho x). rewrite decide_False in Ho by done. rewrite Hpa.
    pose proof (r_arr _ _ HR x nx Hx). specialize (Hvw x). lia.
  - intros x Hx. rewrite Hn in Hx. rewrite Hpa. specialize (Ho x). specialize (Hvw x). destruct (decide (x = a)) as [->|Hne].
    + specialize (Hnov a n Ha). split; lia.
    + rewrite lookup_delete_ne in Hx by done. destruct (r_dead _ _ HR x Hx) as [? ?]. assert (view_of x n = 0)%nat; [|lia].
      unfold view_of. unfold shape in Hs. destruct (custom_free n) as [|c|p]; [done|done|]. destruct Hs as (_ & _ & np & lp & st & Hnp & _). case_decide; [|done]. congruence.
  - exact Hmem.
  - intros k c Hc'. pose proof (Hsub _ _ Hc') as Hc2. destruct (r_own _ _ HR k c Hc2) as [|(a' & n' & Ha' & Hcf & Hbb)]; [by left|right]. exists a', n'. rewrite Hn. split; [|done].
    rewrite lookup_delete_ne; [done|]. intros <-. simplify_eq. rewrite Hk, Hcf, Hbb, lookup_delete in Hc'. done.
  - intros a1 a2 n1 n2 k H1 H2. rewrite Hn in H1, H2. apply lookup_delete_Some in H1 as [_ H1], H2 as [_ H2]. by apply (r_uniq _ _ HR).
  - intros k c ?%Hsub. by eapply (r_blk _ _ HR).
  - intros b Hb0. apply (r_live _ _ HR). specialize (Hrefs b). lia.
Qed.
