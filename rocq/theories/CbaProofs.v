(** The functions of constbuffer_array do what the specification says. *)
From Verif Require Import Common CbaModel Tally CbaSpec CbaFacts.
Local Open Scope Z_scope.

Definition sim (o : op) : Prop :=
  forall t s, R t s -> allowed t o -> exists r s' t', run o s = Done (r, s') /\ effect (fails s < fails s')%nat t o r t' /\ R t' s'.

(** ** The loops *)
Fixpoint adds (f : nat -> nat) (l : list nat) : nat -> nat := match l with [] => f | b :: l => adds (upd f b (S (f b))) l end.
Lemma adds_at l f b : adds f l b = (f b + occ b l)%nat.
Proof. revert f. induction l as [|x l IH]; intros f; simpl; [lia|]. rewrite IH. unfold upd. repeat case_decide; subst; try done; lia. Qed.
Fixpoint subs (f : nat -> nat) (l : list nat) : nat -> nat := match l with [] => f | b :: l => subs (upd f b (pred (f b))) l end.
Lemma subs_at l f b : subs f l b = (f b - occ b l)%nat.
Proof. revert f. induction l as [|x l IH]; intros f; simpl; [lia|]. rewrite IH. unfold upd. repeat case_decide; subst; try done; lia. Qed.
Fixpoint ins (d : nat) (l : list nat) (m : list (option nat)) : list (option nat) := match l with [] => m | b :: l => ins (S d) l (<[d := Some b]> m) end.
Lemma ins_length d l m : length (ins d l m) = length m.
Proof. revert d m. induction l as [|x l IH]; intros d m; simpl; [done|]. by rewrite IH, insert_length. Qed.
Lemma ins_eq l d m : (d + length l <= length m)%nat -> ins d l m = take d m ++ map Some l ++ drop (d + length l) m.
Proof.
  revert d m. induction l as [|x l IH]; intros d m H; simpl in *; [by rewrite Nat.add_0_r, take_drop|].
  rewrite IH by (rewrite insert_length; lia). rewrite drop_insert_gt by lia. rewrite (take_S_r _ _ (Some x)) by (apply list_lookup_insert; lia).
  rewrite take_insert by lia. rewrite <- (assoc_L (++)). simpl. do 4 f_equal. lia.
Qed.
Lemma ins_full l : ins 0 l (replicate (length l) None) = map Some l.
Proof. rewrite ins_eq by (rewrite replicate_length; lia). rewrite drop_ge by (rewrite replicate_length; lia). by rewrite app_nil_r. Qed.
Lemma ins_app l1 l2 d m : ins d (l1 ++ l2) m = ins (d + length l1) l2 (ins d l1 m).
Proof. revert d m. induction l1 as [|x l1 IH]; intros d m; simpl; [by rewrite Nat.add_0_r|]. rewrite IH. f_equal. lia. Qed.
Lemma adds_app f l1 l2 : adds f (l1 ++ l2) = adds (adds f l1) l2.
Proof. revert f. induction l1 as [|x l1 IH]; intros f; simpl; [done|]. by rewrite IH. Qed.

Notation put_mem n m := (Node (nref n) (nBuffers n) (custom_free n) (buffers n) m).
(** The heap s with other reference counts f and with the node n at a *)
Definition at_ (a : nat) (f : nat -> nat) (n : node) (s : heap) : heap := with_refs f (with_nodes (<[a := n]> (nodes s)) s).
Definition bump (o : list bool) (s : heap) : heap := Heap (refs s) (content s) (nodes s) (blocks s) (bnext s) (S (nnext s)) (knext s) o (fails s).

Lemma inc_at a f n s b : (0 < f b)%nat -> CONSTBUFFER_IncRef b (at_ a f n s) = Done (tt, at_ a (upd f b (S (f b))) n s).
Proof. intros H. unfold CONSTBUFFER_IncRef, at_ at 1. simpl. destruct (f b) eqn:E; [lia|]. done. Qed.
Lemma write_at a f n m s d b : buffers n = InNode a 0 -> (d < length m)%nat -> write_buffer a d b (at_ a f (put_mem n m) s) = Done (tt, at_ a f (put_mem n (<[d := Some b]> m)) s).
Proof.
  intros Hb Hd. unfold write_buffer. erewrite bind_done by (unfold get_node, at_; simpl; by rewrite lookup_insert). simpl. rewrite decide_True by done.
  unfold set_node, at_. simpl. unfold with_nodes, with_refs. simpl. by rewrite insert_insert.
Qed.

Lemma copy_ok (src : nat -> M heap nat) a n s l : buffers n = InNode a 0 -> forall i d f m,
  (d + length l <= length m)%nat -> (forall b, b ∈ l -> (0 < f b)%nat) ->
  (forall j b f m, l !! j = Some b -> src (i + j)%nat (at_ a f (put_mem n m) s) = Done (b, at_ a f (put_mem n m) s)) ->
  copy_buffers src a i d (length l) (at_ a f (put_mem n m) s) = Done (tt, at_ a (adds f l) (put_mem n (ins d l m)) s).
Proof.
  intros Hb. induction l as [|x l IH]; intros i d f m Hd Hf Hsrc; simpl in *; [done|].
  erewrite bind_done by (pose proof (Hsrc 0%nat x f m eq_refl) as H0; rewrite Nat.add_0_r in H0; exact H0).
  erewrite bind_done by (apply inc_at, Hf; by left). erewrite bind_done by (apply write_at; [done|lia]). apply IH.
  - rewrite insert_length. lia.
  - intros b Hbl. unfold upd. case_decide; [lia|]. apply Hf. by right.
  - intros j b f' m' Hj. rewrite <- (Hsrc (S j) b f' m' Hj). f_equal. lia.
Qed.

(** ** A new array *)
Lemma len_nat {A} (l : list A) : Z.to_nat (len l) = length l.
Proof. unfold len. lia. Qed.
Lemma gives_new t s o l :
  R t s -> (forall b, b ∈ l -> (0 < refs s b)%nat) -> len l <= UINT32_MAX ->
  exists t', gives t (nnext s) l t' /\ R t' (at_ (nnext s) (adds (refs s) l) (Node 1 (len l) NoFree (InNode (nnext s) 0) (map Some l)) (bump o s)).
Proof.
  intros HR Hal Hlen. eexists. split; [split; [left; by apply fresh_node|reflexivity]|].
  apply R_owned; try done; simpl.
  - intros b. apply (r_size _ _ HR).
  - apply (r_data _ _ HR).
  - intros b. rewrite adds_at. intros H. destruct (decide (b ∈ l)) as [?%Hal|?%occ_none]; apply (r_live _ _ HR); lia.
  - apply Forall_forall. intros b ?%Hal. by apply (alive_old _ _ _ HR).
  - intros b. rewrite adds_at. lia.
Qed.

(** A call that makes an array with the buffers l, read from the source *)
Lemma array_of t s src l z i :
  R t s -> (forall b, b ∈ l -> (0 < refs s b)%nat) -> z = len l -> len l <= UINT32_MAX ->
  (forall j b s', agrees s s' -> l !! j = Some b -> src (i + j)%nat s' = Done (b, s')) ->
  forall o, exists t', gives t (nnext s) l t' /\
    copy_buffers src (nnext s) i 0 (Z.to_nat z) (with_node (Node 1 z (own_memory (nnext s)).1 (own_memory (nnext s)).2 (replicate (Z.to_nat z) None)) o s) =
      Done (tt, at_ (nnext s) (adds (refs s) l) (Node 1 (len l) NoFree (InNode (nnext s) 0) (map Some l)) (bump o s)) /\
    R t' (at_ (nnext s) (adds (refs s) l) (Node 1 (len l) NoFree (InNode (nnext s) 0) (map Some l)) (bump o s)).
Proof.
  intros HR Hal -> Hlen Hsrc o. destruct (gives_new t s o l HR Hal Hlen) as (t' & Hg & HR'). exists t'. split_and!; [done| |done].
  rewrite len_nat. set (n := Node 1 (len l) NoFree (InNode (nnext s) 0) []).
  change (with_node _ o s) with (at_ (nnext s) (refs s) (put_mem n (replicate (length l) None)) (bump o s)). rewrite (copy_ok src _ n _ l); [|done|by rewrite replicate_length|done|].
  - by rewrite ins_full.
  - intros j b f m Hj. apply Hsrc; [|done]. split; simpl; [|done]. intros a' n' Ha'. exists n'. rewrite lookup_insert_ne; [done|]. destruct (fresh_node t s HR). congruence.
Qed.


(** A call that gives the user an array with the buffers l, or runs out of memory *)
Definition makes (t : abs) (s : heap) (m : M heap (option nat)) (l : list nat) : Prop :=
  (exists o, m s = Done (None, tick o (S (fails s)) s)) \/
  (exists a s' t', m s = Done (Some a, s') /\ gives t a l t' /\ R t' s' /\ fails s' = fails s).
(** A call that returns NULL and does nothing *)
Definition refuses (s : heap) (m : M heap (option nat)) : Prop := m s = Done (None, s).

Lemma sim_makes o t s (m : M heap (option nat)) l (bad : Prop) (ok : nat -> abs -> Prop) :
  run o = bind m (fun r => ret (RHandle r)) -> (forall nomem r t', effect nomem t o (RHandle r) t' = answers bad nomem t t' r (fun a => ok a t')) ->
  R t s -> ~ bad -> makes t s m l -> (forall a t', gives t a l t' -> ok a t') ->
  exists r s' t', run o s = Done (r, s') /\ effect (fails s < fails s')%nat t o r t' /\ R t' s'.
Proof.
  intros -> He HR Hb [[oo E]|(a & s' & t' & E & Hg & HR' & Hf)] Hok.
  - eexists _, _, t. erewrite bind_done by exact E. split; [done|]. split; [|by apply R_tick]. rewrite He. split; [right; simpl; lia|done].
  - eexists _, s', t'. erewrite bind_done by exact E. split; [done|]. split; [|done]. rewrite He. split_and!; [done|lia|auto].
Qed.
Lemma sim_refuses o t s (m : M heap (option nat)) (bad : Prop) (ok : nat -> abs -> Prop) :
  run o = bind m (fun r => ret (RHandle r)) -> (forall nomem r t', effect nomem t o (RHandle r) t' = answers bad nomem t t' r (fun a => ok a t')) ->
  R t s -> bad -> refuses s m -> exists r s' t', run o s = Done (r, s') /\ effect (fails s < fails s')%nat t o r t' /\ R t' s'.
Proof. intros -> He HR Hb E. eexists _, s, t. erewrite bind_done by exact E. split; [done|]. split; [|done]. rewrite He. split; [by left|done]. Qed.
Ltac by_makes l := eapply (sim_makes _ _ _ _ l); [reflexivity|intros ? ? ?; reflexivity|assumption| | |].
Ltac by_refuses := eapply sim_refuses; [reflexivity|intros ? ? ?; reflexivity|assumption| |].

(** Arrays the user holds *)
Lemma arr_alive t s a l : R t s -> held t a l -> forall b, b ∈ l -> (0 < refs s b)%nat.
Proof. intros HR Hh b Hb. destruct (held_node t s a l HR Hh) as (n & Ha & _). destruct Hh. by eapply elem_alive. Qed.
Lemma arr_read t s s' a l i b : R t s -> agrees s s' -> held t a l -> l !! i = Some b -> read_buffer a i s' = Done (b, s').
Proof. intros HR Hag Hh Hi. destruct (held_node t s a l HR Hh) as (n & Ha & _). destruct Hh. by eapply read_buffer_ok. Qed.
Lemma arr_get t s a l : R t s -> held t a l -> exists n, get_node a s = Done (n, s) /\ nodes s !! a = Some n /\ nBuffers n = len l /\ len l <= UINT32_MAX.
Proof. intros HR Hh. destruct (held_node t s a l HR Hh) as (n & Ha & ? & ? & _). exists n. unfold get_node. by rewrite Ha. Qed.
Lemma u32_id z : 0 <= z <= UINT32_MAX -> u32 z = z.
Proof. intros. unfold u32, UINT32_MOD, UINT32_MAX in *. by rewrite Z.mod_small by lia. Qed.

Lemma makes_empty t s : R t s -> makes t s constbuffer_array_create_empty [].
Proof.
  intros HR. destruct (new_node_cases 0 0 own_memory s) as [[o E]|[o E]]; [right|left; by exists o].
  destruct (gives_new t s o [] HR) as (t' & Hg & HR'); [by intros ? ?%elem_of_nil|done|]. eexists _, _, t'. split; [exact E|]. split_and!; [done|exact HR'|done].
Qed.
Lemma makes_create t s src l n :
  R t s -> n = len l -> len l <= UINT32_MAX -> (forall b, b ∈ l -> (0 < refs s b)%nat) -> (forall j b s', agrees s s' -> l !! j = Some b -> src j s' = Done (b, s')) ->
  makes t s (constbuffer_array_create (Some src) n) l.
Proof.
  intros HR Hn Hlen Hal Hsrc. unfold constbuffer_array_create. destruct (new_node_cases (Z.to_nat n) n own_memory s) as [[o E]|[o E]].
  - right. destruct (array_of t s src l n 0 HR Hal Hn Hlen Hsrc o) as (t' & Hg & Hrun & HR'). eexists _, _, t'.
    erewrite bind_done by exact E. cbn beta iota. erewrite bind_done by exact Hrun. split_and!; [done|exact Hg|exact HR'|done].
  - left. exists o. by erewrite bind_done by exact E.
Qed.
Lemma sim_create l n : sim (Create l n).
Proof.
  intros t s HR [Hn Hl]. destruct l as [l|].
  - destruct Hl as [Hlen Hl]. by_makes (take (Z.to_nat n) l).
    + naive_solver.
    + apply makes_create; [done| | | |].
      * unfold len in *. rewrite take_length. destruct Hn. lia.
      * unfold len in *. rewrite take_length. destruct Hn. lia.
      * intros b Hb. eapply usable_alive; [done|]. eapply (proj1 (Forall_forall _ _)); [|exact Hb]. by apply Forall_take.
      * intros j b s' _ [Hj _]%lookup_take_Some. unfold item. simpl. by rewrite Hj.
    + done.
  - destruct (decide (n = 0)) as [->|Hne].
    + by_makes (@nil nat); [naive_solver|by apply (makes_empty t s)|done].
    + by_refuses; [done|]. unfold refuses. simpl. by rewrite decide_True.
Qed.
Lemma sim_empty : sim Empty.
Proof. intros t s HR _. by_makes (@nil nat); [tauto|by apply makes_empty|done]. Qed.
Lemma sim_move k n : sim (Move k n).
Proof.
  intros t s HR [Hn Hk]. destruct k as [k|]; [|by by_refuses]. destruct Hk as (l & spare & Hm & ->). cbn [run constbuffer_array_create_with_move_buffers].
  destruct (new_node_cases 0 (len l) (fun a => (FreeMoved a, InBlock k 0)) s) as [[o E]|[o E]]; erewrite bind_done by exact E.
  - eexists _, _, _. split; [done|]. split; [|by eapply (R_moved t s); [done|done|apply Hn|..]]. simpl. split_and!; [done|lia|]. exists k, l, spare. split_and!; try done.
    split; [left; by apply (fresh_node t s)|done].
  - eexists _, _, t. split; [done|]. split; [|by apply R_tick]. split; [right; simpl; lia|done].
Qed.
Lemma of_array_held t a x l P : held t x l -> a = Some x -> of_array t a P <-> P l.
Proof. intros [_ Hl] ->. split; [intros (x' & l' & ? & ? & ?); by simplify_eq|]. intros H. by exists x, l. Qed.
(** A reference to an array the user may mention is added *)
Lemma inc_ok t s a l : R t s -> held t a l -> exists s', inc_node a s = Done (tt, s') /\ R (get_arr a t) s' /\ fails s' = fails s /\ exists n, nodes s !! a = Some n /\ s' = with_nodes (<[a := renumber n (S (nref n))]> (nodes s)) s.
Proof.
  intros HR Hh. destruct (held_node t s a l HR Hh) as (n & Ha & _ & _ & Hr). exists (with_nodes (<[a := renumber n (S (nref n))]> (nodes s)) s). split_and!; [| |done|by exists n].
  - unfold inc_node. erewrite bind_done by (unfold get_node; by rewrite Ha). destruct (nref n) eqn:E; [lia|]. reflexivity.
  - eapply (R_count t s _ a n (S (nref n))); try done; lia.
Qed.

Lemma makes_view t s a l i n : R t s -> held t a l -> 0 <= i -> 0 <= n -> i + n <= len l ->
  makes t s (constbuffer_array_create_from_buffer_index_and_count (Some a) i n) (take (Z.to_nat n) (drop (Z.to_nat i) l)).
Proof.
  intros HR Hh Hi Hn Hin. destruct (arr_get t s a l HR Hh) as (nd & Hget & Hnd & Hc & Hmax).
  unfold makes, constbuffer_array_create_from_buffer_index_and_count. setoid_rewrite (bind_done _ _ _ _ _ Hget). rewrite Hc.
  assert ((i >? len l) || (n >? u32 (len l - i)) = false) as -> by (rewrite u32_id by lia; lia).
  match goal with |- context [new_node ?r ?c ?f] => destruct (new_node_cases r c f s) as [[o E]|[o E]] end; setoid_rewrite (bind_done _ _ _ _ _ E); [right|left; by exists o].
  destruct (inc_ok t s a l HR Hh) as (s1 & _ & HR1 & Hf1 & n1 & Hn1 & ->). simplify_eq. destruct Hh as [Ho Hl]. destruct (fresh_node t s HR) as [Hf Hfs]. assert (nnext s <> a) as Hne by congruence.
  destruct (held_node t s a l HR) as (n' & Hn' & _ & _ & Hr'); [done|]. rewrite Hnd in Hn'. injection Hn' as <-.
  exists (nnext s), (with_nodes (<[a := renumber nd (S (nref nd))]> (<[nnext s := Node 1 n (FreeView a) (shift (buffers nd) (Z.to_nat i)) []]> (nodes s))) (bump o s)). eexists. split.
  - unfold inc_node, bind, get_node. simpl. rewrite lookup_insert_ne, Hnd by done. destruct (nref nd) as [|r] eqn:Er; [lia|]. reflexivity.
  - split; [split; [left; exact Hfs|reflexivity]|]. split; [|done].
    clear Hr'; destruct (r_node _ _ HR a nd Hnd) as (? & _ & _ & _ & Hr & _).
    eapply R_same; [eapply (R_view _ _ _ a _ l (Z.to_nat i) (Z.to_nat n) HR1)|..]; simpl; try done.
    + by rewrite lookup_insert.
    + rewrite upd_same. lia.
    + unfold len in *. lia.
    + rewrite Z2Nat.id by done. simpl. rewrite insert_commute by done. destruct (nref nd); [lia|done].
    + intros y. destruct (decide (y = nnext s)) as [->|]; [rewrite !upd_same; destruct (fresh_ours t s HR); lia|]. rewrite !(upd_other _ (nnext s)) by done.
      destruct (decide (y = a)) as [->|]; [by rewrite !upd_same|by rewrite !upd_other].
Qed.
Lemma sim_view a i n : sim (View a i n).
Proof.
  intros t s HR (Hi & Hn & Ha). destruct a as [a|]; [|by_refuses; [by intros (? & ? & ? & _)|done]]. destruct Ha as [l Hh].
  destruct (arr_get t s a l HR Hh) as (nd & Hget & Hnd & Hc & Hmax). destruct Hi, Hn. pose proof (fun P => of_array_held t (Some a) a l P Hh eq_refl) as Hof.
  destruct (decide (i + n <= len l)) as [Hin|Hin].
  - by_makes (take (Z.to_nat n) (drop (Z.to_nat i) l)); [rewrite Hof; tauto|by apply makes_view|].
    intros x t' Hg. by rewrite Hof.
  - by_refuses; [by rewrite Hof|]. unfold refuses, constbuffer_array_create_from_buffer_index_and_count. rewrite (bind_done _ _ _ _ _ Hget), Hc.
    destruct (i >? len l) eqn:E; [done|]. assert (n >? u32 (len l - i) = true) as -> by (rewrite u32_id by lia; lia). done.
Qed.

(** ** Buffers and blocks of the user *)
Lemma new_buffer_cases c s :
  (exists o, new_buffer c s = Done (Some (bnext s), Heap (upd (refs s) (bnext s) 1%nat) (upd (content s) (bnext s) c) (nodes s) (blocks s) (S (bnext s)) (nnext s) (knext s) o (fails s))) \/
  (exists o, new_buffer c s = Done (None, tick o (S (fails s)) s)).
Proof. unfold new_buffer. destruct (allocate_cases s) as [[o E]|[o E]]; [left|right]; exists o; by rewrite (bind_done _ _ _ _ _ E). Qed.
Lemma fresh_data t s : R t s -> data t !! bnext s = None.
Proof. intros HR. destruct (data t !! bnext s) eqn:E; [|done]. apply (r_data _ _ HR) in E. lia. Qed.
Lemma sim_buffer c : sim (Buffer c).
Proof.
  intros t s HR Hc. simpl in Hc. cbn [run]. destruct (new_buffer_cases c s) as [[o E]|[o E]]; erewrite bind_done by exact E.
  - eexists _, _, _. split; [done|]. split; [|by eapply (R_buffer t s)]. simpl. split_and!; [tauto|lia|by apply fresh_data|done].
  - eexists _, _, t. split; [done|]. split; [|by apply R_tick]. simpl. split; [right; lia|done].
Qed.
Lemma inc_buf_ok t s b : R t s -> (0 < refs s b)%nat -> CONSTBUFFER_IncRef b s = Done (tt, with_refs (upd (refs s) b (S (refs s b))) s) /\ R (get_buf b t) (with_refs (upd (refs s) b (S (refs s b))) s).
Proof.
  intros HR Hb. split; [unfold CONSTBUFFER_IncRef; destruct (refs s b); [lia|done]|]. apply (R_refs t s); try done; simpl.
  - intros x. unfold upd. case_decide; subst; intros; lia.
  - intros x. unfold upd. case_decide; subst; lia.
Qed.
Lemma sim_inc b : sim (Inc b).
Proof. intros t s HR Hb. destruct (inc_buf_ok t s b HR) as [E HR']; [by eapply usable_alive|]. eexists _, _, _. cbn [run]. erewrite bind_done by exact E. done. Qed.
Lemma dec_buf_ok t s b : R t s -> (0 < mine t b)%nat -> CONSTBUFFER_DecRef b s = Done (tt, with_refs (upd (refs s) b (pred (refs s b))) s) /\ R (put_buf b t) (with_refs (upd (refs s) b (pred (refs s b))) s).
Proof.
  intros HR Hb. pose proof (r_buf _ _ HR b) as Hrb. split; [unfold CONSTBUFFER_DecRef; destruct (refs s b); [lia|done]|]. apply (R_refs t s); try done; simpl.
  - intros x. unfold upd. case_decide; subst; intros; lia.
  - intros x. unfold upd. case_decide; subst; lia.
Qed.
Lemma sim_dec b : sim (Dec b).
Proof. intros t s HR Hb. destruct (dec_buf_ok t s b HR Hb) as [E HR']. eexists _, _, _. cbn [run]. erewrite bind_done by exact E. done. Qed.

Lemma fresh_block t s : R t s -> blocks s !! knext s = None /\ mem t !! knext s = None.
Proof.
  intros HR. assert (blocks s !! knext s = None) as H. { destruct (blocks s !! knext s) eqn:E; [|done]. apply (r_blk _ _ HR) in E. lia. }
  split; [done|]. destruct (mem t !! knext s) eqn:E; [|done]. apply (r_mem _ _ HR) in E. congruence.
Qed.
Lemma new_block_cases room s :
  (exists o, new_block room s = Done (Some (knext s), Heap (refs s) (content s) (nodes s) (<[knext s := replicate room None]> (blocks s)) (bnext s) (nnext s) (S (knext s)) o (fails s))) \/
  (exists o, new_block room s = Done (None, tick o (S (fails s)) s)).
Proof. unfold new_block. destruct (allocate_cases s) as [[o E]|[o E]]; [left|right]; exists o; by rewrite (bind_done _ _ _ _ _ E). Qed.
Lemma bufs_none n : bufs_in (replicate n None) = [].
Proof. by induction n. Qed.
Lemma arrs_none n : arrs_in (replicate n None) = [].
Proof. by induction n. Qed.
Definition get_block (k : nat) (c : list (option cell)) (t : abs) : abs := Abs (data t) (seqs t) (mine t) (ours t) (<[k := c]> (mem t)).
Lemma new_block_ok t s room o :
  R t s -> R (get_block (knext s) (replicate room None) t) (Heap (refs s) (content s) (nodes s) (<[knext s := replicate room None]> (blocks s)) (bnext s) (nnext s) (S (knext s)) o (fails s)).
Proof.
  intros HR. destruct (fresh_block t s HR) as [Hb Hm]. eapply (R_block t s _ (knext s) (Some (replicate room None))); try done; simpl; try lia.
  - by rewrite Hb, Hm.
  - intros b. by rewrite bufs_none, Hb.
  - intros b. by rewrite arrs_none, Hb.
Qed.
Lemma bufs_insert c i x : c !! i = Some None -> forall b, occ b (bufs_in (<[i := Some x]> c)) = (occ b (bufs_in c) + match x with Buf y => if decide (y = b) then 1 else 0 | _ => 0 end)%nat.
Proof.
  intros Hi b. rewrite insert_take_drop by (by eapply lookup_lt_Some). rewrite <- (take_drop_middle c i None Hi) at 3. unfold bufs_in. rewrite !omap_app, !occ_app. cbn [omap list_omap]. 
  destruct x; simpl; lia.
Qed.
Lemma arrs_insert c i x : c !! i = Some None -> forall b, occ b (arrs_in (<[i := Some x]> c)) = (occ b (arrs_in c) + match x with Arr y => if decide (y = b) then 1 else 0 | _ => 0 end)%nat.
Proof.
  intros Hi b. rewrite insert_take_drop by (by eapply lookup_lt_Some). rewrite <- (take_drop_middle c i None Hi) at 3. unfold arrs_in. rewrite !omap_app, !occ_app. cbn [omap list_omap]. 
  destruct x; simpl; lia.
Qed.
(** Storing a handle moves the reference into the block *)
Definition moved_out (x : cell) (t : abs) : abs := match x with Buf b => put_buf b t | Arr a => put_arr a t | _ => t end.
Lemma write_cell_ok t s k c i x :
  R t s -> mem t !! k = Some c -> c !! i = Some None -> match x with Buf b => 0 < mine t b | Arr a => 0 < ours t a | _ => True end%nat ->
  exists s', write_cell k i x s = Done (tt, s') /\ s' = with_blocks (<[k := <[i := Some x]> c]> (blocks s)) s /\ R (get_block k (<[i := Some x]> c) (moved_out x t)) s'.
Proof.
  intros HR Hm Hi Hx. pose proof (r_mem _ _ HR _ _ Hm) as Hb. eexists. split; [|split; [reflexivity|]].
  - unfold write_cell. rewrite Hb. rewrite decide_True; [done|]. by eapply lookup_lt_Some.
  - assert (R (Abs (data t) (seqs t) (mine (moved_out x t)) (ours (moved_out x t)) (<[k := <[i := Some x]> c]> (mem t))) (with_blocks (<[k := <[i := Some x]> c]> (blocks s)) s)) as H.
    { eapply (R_block t s _ k (Some (<[i := Some x]> c))); try done; simpl; try lia.
      - by rewrite Hm, Hb.
      - by eapply (r_blk _ _ HR).
      - intros b. rewrite Hb. simpl. rewrite (bufs_insert c i x Hi). destruct x as [y| | |]; simpl; try lia. unfold upd. repeat case_decide; subst; try done; lia.
      - intros b. rewrite Hb. simpl. rewrite (arrs_insert c i x Hi). destruct x as [|y| |]; simpl; try lia. unfold upd. repeat case_decide; subst; try done; lia. }
    eapply R_same; [exact H|..]; by destruct x.
Qed.
Lemma fill_ok l : forall t s k done_ spare, R t s -> mem t !! k = Some (full done_ (length l + spare)) -> (forall b, occ b l <= mine t b)%nat ->
  exists s', fill_block k (length done_) l s = Done (tt, s') /\ fails s' = fails s /\
    R (Abs (data t) (seqs t) (fun b => mine t b - occ b l)%nat (ours t) (<[k := full (done_ ++ l) spare]> (mem t))) s'.
Proof.
  induction l as [|x l IH]; intros t s k d spare HR Hm Hl; simpl.
  - eexists. split; [done|]. split; [done|]. rewrite app_nil_r. eapply R_same; [exact HR|done|done|simpl; by rewrite insert_id|simpl; intros; lia|done].
  - destruct (write_cell_ok t s k (full d (S (length l) + spare)) (length d) (Buf x) HR Hm) as (s1 & E1 & Es1 & HR1).
    { rewrite lookup_app_r by (rewrite map_length; lia). rewrite map_length, Nat.sub_diag. done. }
    { specialize (Hl x). simpl in Hl. rewrite decide_True in Hl by done. lia. }
    erewrite bind_done by exact E1. assert (<[length d := Some (Buf x)]> (full d (S (length l) + spare)) = full (d ++ [x]) (length l + spare)) as Ef.
    { rewrite insert_app_r_alt by (rewrite map_length; lia). rewrite map_length, Nat.sub_diag. simpl. rewrite map_app. simpl. by rewrite <- (assoc_L (++)). }
    rewrite Ef in HR1. destruct (IH _ s1 k (d ++ [x]) spare HR1) as (s2 & E2 & Hf & HR2).
    + simpl. by rewrite lookup_insert.
    + intros b. specialize (Hl b). simpl in *. unfold upd. repeat case_decide; subst; try done; lia.
    + rewrite app_length in E2. simpl in E2. rewrite Nat.add_1_r in E2. exists s2. split; [done|]. split; [by rewrite Hf, Es1|]. eapply R_same; [exact HR2|done|done| |simpl|done].
      * simpl. rewrite insert_insert. by rewrite <- (assoc_L (++)).
      * intros b. unfold upd. repeat case_decide; subst; try done; lia.
Qed.
Lemma sim_alloc l spare : sim (Alloc l spare).
Proof.
  intros t s HR Hl. cbn [run]. destruct (new_block_cases (length l + spare) s) as [[o E]|[o E]]; erewrite bind_done by exact E.
  - pose proof (new_block_ok t s (length l + spare) o HR) as HR1. destruct (fill_ok l _ _ (knext s) [] spare HR1) as (s' & E' & Hf & HR'); [simpl; by rewrite lookup_insert|done|].
    simpl in E'. erewrite bind_done by exact E'. eexists _, s', _. split; [done|]. split; [|exact HR']. simpl. simpl in Hf. split_and!; [tauto|lia|by apply (fresh_block t s)|].
    by rewrite insert_insert.
  - eexists _, _, t. split; [done|]. split; [|by apply R_tick]. simpl. split; [right; lia|done].
Qed.
Lemma free_block_ok t s k c : R t s -> mem t !! k = Some c ->
  free_block k s = Done (tt, with_blocks (delete k (blocks s)) s) /\
  R (Abs (data t) (seqs t) (fun b => mine t b + occ b (bufs_in c))%nat (fun a => ours t a + occ a (arrs_in c))%nat (delete k (mem t))) (with_blocks (delete k (blocks s)) s).
Proof.
  intros HR Hm. pose proof (r_mem _ _ HR _ _ Hm) as Hb. split; [unfold free_block; by rewrite Hb|].
  eapply (R_block t s _ k None); try done; simpl.
  - by rewrite Hm, Hb.
  - by eapply (r_blk _ _ HR).
  - intros b. rewrite Hb. simpl. lia.
  - intros b. rewrite Hb. simpl. lia.
Qed.
Lemma sim_free k : sim (Free k).
Proof. intros t s HR [c Hm]. destruct (free_block_ok t s k c HR Hm) as [E HR']. eexists _, _, _. cbn [run]. erewrite bind_done by exact E. split; [done|]. split; [|exact HR']. simpl. by exists c. Qed.
