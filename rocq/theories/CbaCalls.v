(** More functions of constbuffer_array do what the specification says. *)
From Verif Require Import Common CbaModel Tally CbaSpec CbaFacts CbaProofs.
Local Open Scope Z_scope.

(** ** One more and one less buffer *)
Lemma agrees_new t s f n o : R t s -> agrees s (at_ (nnext s) f n (bump o s)).
Proof. intros HR. split; simpl; [|done]. intros a' n' Ha'. exists n'. rewrite lookup_insert_ne; [done|]. destruct (fresh_node t s HR). congruence. Qed.
(** The node made by a call, as the loops see it *)
Lemma made_at z o s : 0 <= z -> with_node (Node 1 z (own_memory (nnext s)).1 (own_memory (nnext s)).2 (replicate (Z.to_nat z) None)) o s =
  at_ (nnext s) (refs s) (put_mem (Node 1 z NoFree (InNode (nnext s) 0) []) (replicate (Z.to_nat z) None)) (bump o s).
Proof. done. Qed.

Lemma makes_add_front t s a l b : R t s -> held t a l -> (0 < refs s b)%nat -> len l < UINT32_MAX -> makes t s (constbuffer_array_add_front (Some a) (Some b)) (b :: l).
Proof.
  intros HR Hh Hb Hlen. destruct (arr_get t s a l HR Hh) as (nd & Hget & Hnd & Hc & Hmax). pose proof (arr_alive t s a l HR Hh) as Hal.
  unfold makes, constbuffer_array_add_front. setoid_rewrite (bind_done _ _ _ _ _ Hget). rewrite Hc. rewrite decide_False by lia.
  assert (u32 (len l + 1) = len (b :: l)) as -> by (unfold len in *; simpl; rewrite u32_id; lia).
  match goal with |- context [new_node ?r ?c ?f] => destruct (new_node_cases r c f s) as [[o E]|[o E]] end; setoid_rewrite (bind_done _ _ _ _ _ E); [right|left; by exists o].
  destruct (gives_new t s o (b :: l) HR) as (t' & Hg & HR'); [intros x [->|Hx]%elem_of_cons; auto|unfold len in *; simpl; lia|].
  eexists _, _, t'. split; [|split_and!; [exact Hg|exact HR'|done]]. rewrite made_at by (unfold len; lia). rewrite len_nat.
  erewrite bind_done by (by apply inc_at). erewrite bind_done by (apply write_at; [done|rewrite replicate_length; simpl; lia]).
  cbn [length Nat.sub]. rewrite Nat.sub_0_r. erewrite bind_done.
  2:{ apply (copy_ok _ _ _ _ l); [done|rewrite insert_length, replicate_length; lia| |].
      - intros x Hx%Hal. unfold upd. case_decide; lia.
      - intros j x f m Hj. replace (1 + j - 1)%nat with j by lia. eapply (arr_read t s); [done|by eapply (agrees_new t)|done|done]. }
  match goal with |- context [ins 1 l ?m] => change (ins 1 l m) with (ins 0 (b :: l) (replicate (length (b :: l)) None)) end. by rewrite ins_full.
Qed.
Lemma sim_add_front a b : sim (AddFront a b).
Proof.
  intros t s HR [Ha Hb]. destruct b as [b|]; [|by_refuses; [by left|by destruct a]]. destruct a as [a|]; [|by_refuses; [right; by intros (? & ? & ? & _)|done]].
  destruct Ha as [l Hh]. pose proof (fun P => of_array_held t (Some a) a l P Hh eq_refl) as Hof. destruct (arr_get t s a l HR Hh) as (nd & Hget & Hnd & Hc & Hmax).
  destruct (decide (len l < UINT32_MAX)) as [Hlt|Hge].
  - by_makes (b :: l); [rewrite Hof; naive_solver|apply makes_add_front; try done; by eapply usable_alive|]. intros x t' Hg. rewrite Hof. by exists b.
  - by_refuses; [right; by rewrite Hof|]. unfold refuses, constbuffer_array_add_front. rewrite (bind_done _ _ _ _ _ Hget), Hc. by rewrite decide_True by lia.
Qed.

Lemma adds_last f l b x : adds f (l ++ [b]) x = upd (adds f l) b (S (adds f l b)) x.
Proof. by rewrite adds_app. Qed.
Lemma makes_add_back t s a l b : R t s -> held t a l -> (0 < refs s b)%nat -> len l < UINT32_MAX -> makes t s (constbuffer_array_add_back (Some a) (Some b)) (l ++ [b]).
Proof.
  intros HR Hh Hb Hlen. destruct (arr_get t s a l HR Hh) as (nd & Hget & Hnd & Hc & Hmax). pose proof (arr_alive t s a l HR Hh) as Hal.
  unfold makes, constbuffer_array_add_back. setoid_rewrite (bind_done _ _ _ _ _ Hget). rewrite Hc. rewrite decide_False by lia.
  assert (u32 (len l + 1) = len (l ++ [b])) as -> by (unfold len in *; rewrite app_length; simpl; rewrite u32_id; lia).
  assert (Z.to_nat (u32 (len (l ++ [b]) - 1)) = length l) as -> by (unfold len in *; rewrite app_length; simpl; rewrite u32_id; lia).
  match goal with |- context [new_node ?r ?c ?f] => destruct (new_node_cases r c f s) as [[o E]|[o E]] end; setoid_rewrite (bind_done _ _ _ _ _ E); [right|left; by exists o].
  destruct (gives_new t s o (l ++ [b]) HR) as (t' & Hg & HR'); [intros x [Hx| ->%elem_of_list_singleton]%elem_of_app; auto|unfold len in *; rewrite app_length; simpl; lia|].
  eexists _, _, t'. split; [|split_and!; [exact Hg|exact HR'|done]]. rewrite made_at by (unfold len; lia). rewrite len_nat.
  erewrite bind_done.
  2:{ apply (copy_ok _ _ _ _ l); [done|rewrite replicate_length, app_length; lia|by intros x Hx%Hal|].
      intros j x f m Hj. eapply (arr_read t s); [done|by eapply (agrees_new t)|done|done]. }
  erewrite bind_done by (apply inc_at; rewrite adds_at; lia). erewrite bind_done by (apply write_at; [done|rewrite ins_length, replicate_length, app_length; simpl; lia]).
  match goal with |- context [<[length l := Some b]> (ins 0 l ?m)] => change (<[length l := Some b]> (ins 0 l m)) with (ins (0 + length l) [b] (ins 0 l m)) end. rewrite <- ins_app, ins_full.
  by rewrite adds_app.
Qed.
Lemma sim_add_back a b : sim (AddBack a b).
Proof.
  intros t s HR [Ha Hb]. destruct b as [b|]; [|by_refuses; [by left|by destruct a]]. destruct a as [a|]; [|by_refuses; [right; by intros (? & ? & ? & _)|done]].
  destruct Ha as [l Hh]. pose proof (fun P => of_array_held t (Some a) a l P Hh eq_refl) as Hof. destruct (arr_get t s a l HR Hh) as (nd & Hget & Hnd & Hc & Hmax).
  destruct (decide (len l < UINT32_MAX)) as [Hlt|Hge].
  - by_makes (l ++ [b]); [rewrite Hof; naive_solver|apply makes_add_back; try done; by eapply usable_alive|]. intros x t' Hg. rewrite Hof. by exists b.
  - by_refuses; [right; by rewrite Hof|]. unfold refuses, constbuffer_array_add_back. rewrite (bind_done _ _ _ _ _ Hget), Hc. by rewrite decide_True by lia.
Qed.

Lemma remove_front_ok t s a b l :
  R t s -> held t a (b :: l) ->
  (exists o, constbuffer_array_remove_front (Some a) true s = Done (None, tick o (S (fails s)) s)) \/
  (exists x s' t', constbuffer_array_remove_front (Some a) true s = Done (Some (x, b), s') /\ gives (get_buf b t) x l t' /\ R t' s' /\ fails s' = fails s).
Proof.
  intros HR Hh. destruct (arr_get t s a _ HR Hh) as (nd & Hget & Hnd & Hc & Hmax). pose proof (arr_alive t s a _ HR Hh) as Hal.
  unfold constbuffer_array_remove_front. setoid_rewrite (bind_done _ _ _ _ _ Hget). rewrite Hc. rewrite decide_False by (unfold len; simpl; lia).
  assert (u32 (len (b :: l) - 1) = len l) as -> by (unfold len in *; simpl in *; rewrite u32_id; lia).
  match goal with |- context [new_node ?r ?c ?f] => destruct (new_node_cases r c f s) as [[o E]|[o E]] end; setoid_rewrite (bind_done _ _ _ _ _ E); [right|left; by exists o].
  destruct (inc_buf_ok t s b HR) as [_ HR1]; [apply Hal; by left|].
  destruct (gives_new _ _ o l HR1) as (t' & Hg & HR').
  { intros x Hx. simpl. unfold upd. case_decide; [lia|]. apply Hal. by right. }
  { unfold len in *. simpl in *. lia. }
  eexists _, _, t'. split; [|split_and!; [exact Hg|exact HR'|done]]. rewrite made_at by (unfold len; lia). rewrite !len_nat.
  assert (forall f m j x, (b :: l) !! j = Some x -> read_buffer a j (at_ (nnext s) f m (bump o s)) = Done (x, at_ (nnext s) f m (bump o s))) as Hrd.
  { intros f m j x Hj. eapply (arr_read t s); [done|by eapply (agrees_new t)|done|done]. }
  erewrite bind_done by (by apply (Hrd _ _ 0%nat)). erewrite bind_done by (apply inc_at, Hal; by left). cbn [length Nat.sub]. rewrite Nat.sub_0_r.
  erewrite bind_done.
  2:{ apply (copy_ok _ _ _ _ l); [done|rewrite replicate_length; lia| |].
      - intros x Hx. unfold upd. case_decide; [lia|]. apply Hal. by right.
      - intros j x f m Hj. by apply (Hrd f _ (S j)). }
  erewrite bind_done by (by apply (Hrd _ _ 0%nat)). by rewrite ins_full.
Qed.
Lemma sim_remove_front a out : sim (RemoveFront a out).
Proof.
  intros t s HR Ha. cbn [run]. destruct (decide (out = false)) as [->|Hout].
  { eexists _, s, t. rewrite (bind_done _ _ s None s) by (by destruct a). split; [done|]. split; [|done]. simpl. split; [left; by left|done]. }
  destruct out; [|done]. destruct a as [a|].
  2:{ eexists _, s, t. rewrite (bind_done _ _ s None s) by done. split; [done|]. split; [|done]. split; [left; right; by intros (? & ? & ? & _)|done]. }
  destruct Ha as [l Hh]. pose proof (fun P => of_array_held t (Some a) a l P Hh eq_refl) as Hof. destruct l as [|b l].
  - destruct (arr_get t s a _ HR Hh) as (nd & Hget & Hnd & Hc & Hmax). eexists _, s, t. erewrite bind_done.
    2:{ unfold constbuffer_array_remove_front. rewrite (bind_done _ _ _ _ _ Hget), Hc. by rewrite decide_True. }
    split; [done|]. split; [|done]. split; [left; right; rewrite Hof; naive_solver|done].
  - destruct (remove_front_ok t s a b l HR Hh) as [[o E]|(x & s' & t' & E & Hg & HR' & Hf)]; erewrite bind_done by exact E.
    + eexists _, _, t. split; [done|]. split; [|by apply R_tick]. split; [right; simpl; lia|done].
    + eexists _, _, t'. split; [done|]. split; [|done]. split; [rewrite Hof; naive_solver|]. split; [lia|]. rewrite Hof. by exists l.
Qed.
Lemma remove_back_ok t s a b l :
  R t s -> held t a (l ++ [b]) ->
  (exists o, constbuffer_array_remove_back (Some a) true s = Done (None, tick o (S (fails s)) s)) \/
  (exists x s' t', constbuffer_array_remove_back (Some a) true s = Done (Some (x, b), s') /\ gives (get_buf b t) x l t' /\ R t' s' /\ fails s' = fails s).
Proof.
  intros HR Hh. destruct (arr_get t s a _ HR Hh) as (nd & Hget & Hnd & Hc & Hmax). pose proof (arr_alive t s a _ HR Hh) as Hal.
  assert (len (l ++ [b]) = len l + 1) as Hlen by (unfold len; rewrite app_length; simpl; lia). rewrite Hlen in *.
  unfold constbuffer_array_remove_back. setoid_rewrite (bind_done _ _ _ _ _ Hget). rewrite Hc. rewrite decide_False by (unfold len; simpl; lia).
  assert (u32 (len l + 1 - 1) = len l) as -> by (unfold len in *; simpl in *; rewrite u32_id; lia).
  match goal with |- context [new_node ?r ?c ?f] => destruct (new_node_cases r c f s) as [[o E]|[o E]] end; setoid_rewrite (bind_done _ _ _ _ _ E); [right|left; by exists o].
  assert (b ∈ l ++ [b]) as Hbin by (apply elem_of_app; right; by left).
  destruct (inc_buf_ok t s b HR) as [_ HR1]; [by apply Hal|].
  destruct (gives_new _ _ o l HR1) as (t' & Hg & HR').
  { intros x Hx. simpl. unfold upd. case_decide; [lia|]. apply Hal, elem_of_app. by left. }
  { lia. }
  eexists _, _, t'. split; [|split_and!; [exact Hg|exact HR'|done]]. rewrite made_at by (unfold len; lia). rewrite !len_nat.
  assert (forall f m j x, (l ++ [b]) !! j = Some x -> read_buffer a j (at_ (nnext s) f m (bump o s)) = Done (x, at_ (nnext s) f m (bump o s))) as Hrd.
  { intros f m j x Hj. eapply (arr_read t s); [done|by eapply (agrees_new t)|done|done]. }
  erewrite bind_done by (apply Hrd, list_lookup_middle; done). erewrite bind_done by (by apply inc_at, Hal).
  erewrite bind_done by (apply Hrd, list_lookup_middle; done).
  erewrite bind_done.
  2:{ apply (copy_ok _ _ _ _ l); [done|rewrite replicate_length; lia| |].
      - intros x Hx. unfold upd. case_decide; [lia|]. apply Hal, elem_of_app. by left.
      - intros j x f m Hj. by apply Hrd, lookup_app_l_Some. }
  by rewrite ins_full.
Qed.
Lemma sim_remove_back a out : sim (RemoveBack a out).
Proof.
  intros t s HR Ha. cbn [run]. destruct (decide (out = false)) as [->|Hout].
  { eexists _, s, t. rewrite (bind_done _ _ s None s) by (by destruct a). split; [done|]. split; [|done]. simpl. split; [left; by left|done]. }
  destruct out; [|done]. destruct a as [a|].
  2:{ eexists _, s, t. rewrite (bind_done _ _ s None s) by done. split; [done|]. split; [|done]. split; [left; right; by intros (? & ? & ? & _)|done]. }
  destruct Ha as [l Hh]. pose proof (fun P => of_array_held t (Some a) a l P Hh eq_refl) as Hof. destruct l as [|b l _] using rev_ind.
  - destruct (arr_get t s a _ HR Hh) as (nd & Hget & Hnd & Hc & Hmax). eexists _, s, t. erewrite bind_done.
    2:{ unfold constbuffer_array_remove_back. rewrite (bind_done _ _ _ _ _ Hget), Hc. by rewrite decide_True. }
    split; [done|]. split; [|done]. split; [left; right; rewrite Hof; naive_solver|done].
  - destruct (remove_back_ok t s a b l HR Hh) as [[o E]|(x & s' & t' & E & Hg & HR' & Hf)]; erewrite bind_done by exact E.
    + eexists _, _, t. split; [done|]. split; [|by apply R_tick]. split; [right; simpl; lia|done].
    + eexists _, _, t'. split; [done|]. split; [|done]. split; [rewrite Hof; intros [?|H]; [done|apply H; by destruct l]|]. split; [lia|]. rewrite Hof. by exists l.
Qed.

(** ** Looking at an array *)
Lemma sim_count a out : sim (Count a out).
Proof.
  intros t s HR Ha. cbn [run]. destruct a as [a|], out; try (eexists _, s, t; split; [reflexivity|]; split; [|done]; split; [left; tauto|done]).
  destruct Ha as [l Hh]. destruct (arr_get t s a l HR Hh) as (nd & Hget & Hnd & Hc & Hmax). eexists _, s, t. unfold constbuffer_array_get_buffer_count. erewrite bind_done.
  2:{ rewrite (bind_done _ _ _ _ _ Hget). reflexivity. } split; [done|]. split; [|done]. simpl. split_and!; [naive_solver|tauto|]. rewrite (of_array_held _ _ a l) by done. done.
Qed.
Lemma sim_get a i : sim (Get a i).
Proof.
  intros t s HR [Hi Ha]. cbn [run]. destruct a as [a|]; [|eexists _, s, t; split; [reflexivity|]; split; [|done]; split; [left; by intros (? & ? & ? & _)|done]].
  destruct Ha as [l Hh]. pose proof (fun P => of_array_held t (Some a) a l P Hh eq_refl) as Hof. destruct (arr_get t s a l HR Hh) as (nd & Hget & Hnd & Hc & Hmax). 
  unfold constbuffer_array_get_buffer. destruct (decide (i < len l)) as [Hlt|Hge].
  - destruct (lookup_lt_is_Some_2 l (Z.to_nat i)) as [b Hb]; [unfold len in *; destruct Hi; lia|]. 
    destruct (inc_buf_ok t s b HR) as [E HR']; [eapply (arr_alive t s a l); [done|done|by eapply elem_of_list_lookup_2]|].
    eexists _, _, _. erewrite bind_done. 2:{ rewrite (bind_done _ _ _ _ _ Hget), Hc. assert (i >=? len l = false) as -> by lia.
      erewrite bind_done by (eapply (arr_read t s); [done|apply agrees_refl|done|done]). rewrite (bind_done _ _ _ _ _ E). reflexivity. }
    split; [done|]. split; [|exact HR']. simpl. split_and!; [rewrite Hof; tauto|tauto|by rewrite Hof].
  - eexists _, s, t. erewrite bind_done. 2:{ rewrite (bind_done _ _ _ _ _ Hget), Hc. assert (i >=? len l = true) as -> by lia. reflexivity. }
    split; [done|]. split; [|done]. simpl. split; [|done]. left. by rewrite Hof.
Qed.
Lemma held_content t s a l i b : R t s -> held t a l -> l !! i = Some b -> CONSTBUFFER_GetContent b s = Done (bytes_of t b, s) /\ data t !! b = Some (bytes_of t b) /\ size_of t b <= UINT32_MAX.
Proof.
  intros HR Hh Hi. assert (0 < refs s b)%nat as Hb by (eapply (arr_alive t s a l); [done|done|by eapply elem_of_list_lookup_2]).
  split; [by apply content_ok|]. pose proof (alive_old t s b HR Hb) as Hlt. unfold size_of, bytes_of. rewrite (r_live _ _ HR) by done. split; [done|]. by apply (r_size _ _ HR).
Qed.
Lemma sim_content a i : sim (Content a i).
Proof.
  intros t s HR [Hi Ha]. cbn [run]. destruct a as [a|]; [|eexists _, s, t; split; [reflexivity|]; split; [|done]; split; [left; by intros (? & ? & ? & _)|done]].
  destruct Ha as [l Hh]. pose proof (fun P => of_array_held t (Some a) a l P Hh eq_refl) as Hof. destruct (arr_get t s a l HR Hh) as (nd & Hget & Hnd & Hc & Hmax). 
  unfold constbuffer_array_get_buffer_content. destruct (decide (i < len l)) as [Hlt|Hge].
  - destruct (lookup_lt_is_Some_2 l (Z.to_nat i)) as [b Hb]; [unfold len in *; destruct Hi; lia|]. 
    destruct (held_content t s a l _ b HR Hh Hb) as (E & Hd & _).
    eexists _, _, t. erewrite bind_done. 2:{ rewrite (bind_done _ _ _ _ _ Hget), Hc. assert (i >=? len l = false) as -> by lia.
      erewrite bind_done by (eapply (arr_read t s); [done|apply agrees_refl|done|done]). rewrite (bind_done _ _ _ _ _ E). reflexivity. }
    split; [done|]. split; [|done]. simpl. split_and!; [rewrite Hof; tauto|tauto|rewrite Hof; by exists b].
  - eexists _, s, t. erewrite bind_done. 2:{ rewrite (bind_done _ _ _ _ _ Hget), Hc. assert (i >=? len l = true) as -> by lia. reflexivity. }
    split; [done|]. split; [|done]. simpl. split; [|done]. left. by rewrite Hof.
Qed.
Lemma sim_inc_arr a : sim (IncArr a).
Proof.
  intros t s HR Ha. cbn [run]. destruct a as [a|]; [|by eexists _, s, t]. destruct Ha as [l Hh]. destruct (inc_ok t s a l HR Hh) as (s' & E & HR' & _).
  eexists _, _, _. erewrite bind_done by exact E. done.
Qed.
Lemma total_cons t b l : total t (b :: l) = size_of t b + total t l.
Proof. done. Qed.
Lemma total_nonneg t l : 0 <= total t l.
Proof. induction l as [|b l IH]; [done|]. rewrite total_cons. unfold size_of. lia. Qed.
Lemma total_ok t s a l : R t s -> held t a l -> forall n i z, (i + n = length l)%nat -> 0 <= z <= UINT32_MAX ->
  total_size a i n z s = Done ((if decide (z + total t (drop i l) <= UINT32_MAX) then Some (z + total t (drop i l)) else None), s).
Proof.
  intros HR Hh. induction n as [|n IH]; intros i z Hi Hz; simpl.
  - rewrite drop_ge by lia. unfold total. simpl. rewrite Z.add_0_r. by rewrite decide_True by lia.
  - destruct (lookup_lt_is_Some_2 l i) as [b Hb]; [lia|]. erewrite bind_done by (eapply (arr_read t s); [done|apply agrees_refl|done|done]).
    destruct (held_content t s a l _ b HR Hh Hb) as (E & _ & Hsz). rewrite (bind_done _ _ _ _ _ E). fold (size_of t b).
    rewrite (drop_S l b i Hb), total_cons. pose proof (total_nonneg t (drop (S i) l)). assert (0 <= size_of t b) by (unfold size_of; lia).
    destruct (decide (z + size_of t b <= UINT32_MAX)).
    + rewrite u32_id by lia. assert (z + size_of t b <? z = false) as -> by lia. rewrite IH by lia. by rewrite (Z.add_assoc z).
    + assert (u32 (z + size_of t b) <? z = true) as ->.
      { unfold u32, UINT32_MOD, UINT32_MAX in *. replace (z + size_of t b) with (z + size_of t b - 4294967296 + 1 * 4294967296) by lia. rewrite Z_mod_plus_full. rewrite Z.mod_small by lia. lia. }
      rewrite decide_False by lia. done.
Qed.
Lemma sim_size a out : sim (Size a out).
Proof.
  intros t s HR Ha. cbn [run]. destruct out; [|eexists _, s, t; rewrite (bind_done _ _ s None s) by (by destruct a); split; [done|]; split; [|done]; split; [left; tauto|done]].
  destruct a as [a|]; [|eexists _, s, t; split; [reflexivity|]; split; [|done]; split; [left; right; by intros (? & ? & ? & _)|done]].
  destruct Ha as [l Hh]. pose proof (fun P => of_array_held t (Some a) a l P Hh eq_refl) as Hof. destruct (arr_get t s a l HR Hh) as (nd & Hget & Hnd & Hc & Hmax). 
  eexists _, s, t. unfold constbuffer_array_get_all_buffers_size. erewrite bind_done.
  2:{ rewrite (bind_done _ _ _ _ _ Hget), Hc. rewrite len_nat. rewrite (total_ok t s a l) by (done || unfold UINT32_MAX; lia). reflexivity. }
  split; [done|]. split; [|done]. rewrite drop_0, Z.add_0_l. case_decide; simpl.
  - split_and!; [rewrite Hof; naive_solver|tauto|by rewrite Hof].
  - split; [|done]. left. right. by rewrite Hof.
Qed.
Lemma read_all_ok t s a l n : R t s -> held t a l -> nodes s !! a = Some n -> forall m i, (i + m = length l)%nat -> read_all (buffers n) i m s = Done (drop i l, s).
Proof.
  intros HR Hh Hn. induction m as [|m IH]; intros i Hi; simpl; [by rewrite drop_ge by lia|].
  destruct (lookup_lt_is_Some_2 l i) as [b Hb]; [lia|]. rewrite (drop_S l b i Hb).
  pose proof (arr_read t s s a l i b HR (agrees_refl s) Hh Hb) as E. unfold read_buffer in E. rewrite (bind_done _ _ s n s) in E by (unfold get_node; by rewrite Hn).
  rewrite (bind_done _ _ _ _ _ E). rewrite (bind_done _ _ _ _ _ (IH (S i) ltac:(lia))). done.
Qed.
Lemma sim_handles a : sim (Handles a).
Proof.
  intros t s HR Ha. cbn [run]. destruct a as [a|]; [|eexists _, s, t; split; [reflexivity|]; split; [|done]; split; [tauto|done]].
  destruct Ha as [l Hh]. pose proof (fun P => of_array_held t (Some a) a l P Hh eq_refl) as Hof. destruct (arr_get t s a l HR Hh) as (nd & Hget & Hnd & Hc & Hmax). 
  eexists _, s, t. unfold constbuffer_array_get_const_buffer_handle_array, constbuffer_array_get_buffer_count. erewrite bind_done by (rewrite (bind_done _ _ _ _ _ Hget); reflexivity). cbn beta iota.
  erewrite bind_done by (rewrite (bind_done _ _ _ _ _ Hget); reflexivity). cbn [default from_option]. rewrite Hc. simpl. rewrite len_nat. 
  erewrite bind_done by (by apply (read_all_ok t s a l)). split; [done|]. split; [|done]. simpl. split_and!; [done|tauto|by rewrite Hof].
Qed.

Lemma same_ok t s a l a' l' : R t s -> held t a l -> held t a' l' -> length l = length l' -> forall n i, (i + n = length l)%nat ->
  exists b, same_from a a' i n s = Done (b, s) /\ (b = true <-> map (bytes_of t) (drop i l) = map (bytes_of t) (drop i l')).
Proof.
  intros HR Hh Hh' Hlen. induction n as [|n IH]; intros i Hi; simpl.
  - exists true. by rewrite !drop_ge by lia.
  - destruct (lookup_lt_is_Some_2 l i) as [b Hb]; [lia|]. destruct (lookup_lt_is_Some_2 l' i) as [b' Hb']; [lia|].
    erewrite bind_done by (eapply (arr_read t s); [done|apply agrees_refl|done|done]). erewrite bind_done by (eapply (arr_read t s _ a'); [done|apply agrees_refl|done|done]).
    destruct (held_content t s a l _ b HR Hh Hb) as (E & _). destruct (held_content t s a' l' _ b' HR Hh' Hb') as (E' & _).
    rewrite (bind_done _ _ _ _ _ E), (bind_done _ _ _ _ _ E'). rewrite (drop_S l b i Hb), (drop_S l' b' i Hb'). case_decide as Heq.
    + destruct (IH (S i)) as (r & Er & Hr); [lia|]. exists r. split; [done|]. rewrite Hr. simpl. rewrite Heq. split; [by intros ->|by intros [= ->]].
    + exists false. split; [done|]. split; [done|]. by intros [= ? ?].
Qed.
Lemma sim_same a a' : sim (Same a a').
Proof.
  intros t s HR [Ha Ha']. cbn [run]. destruct a as [a|], a' as [a'|].
  - destruct Ha as [l Hh], Ha' as [l' Hh']. pose proof (fun P => of_array_held t (Some a) a l P Hh eq_refl) as Hof. pose proof (fun P => of_array_held t (Some a') a' l' P Hh' eq_refl) as Hof'.
    destruct (arr_get t s a l HR Hh) as (nd & Hget & Hnd & Hc & Hmax). destruct (arr_get t s a' l' HR Hh') as (nd' & Hget' & Hnd' & Hc' & Hmax').
    unfold CONSTBUFFER_ARRAY_HANDLE_contain_same. destruct (decide (length l = length l')) as [Hlen|Hlen].
    + destruct (same_ok t s a l a' l' HR Hh Hh' Hlen (length l) 0 eq_refl) as (b & E & Hb). eexists _, s, t. erewrite bind_done.
      2:{ rewrite (bind_done _ _ _ _ _ Hget), (bind_done _ _ _ _ _ Hget'), Hc, Hc'. rewrite decide_False by (unfold len; naive_solver lia). rewrite len_nat. exact E. }
      split; [done|]. split; [|done]. simpl. split; [done|]. rewrite Hof, Hof'. rewrite !drop_0 in Hb. naive_solver.
    + eexists _, s, t. erewrite bind_done.
      2:{ rewrite (bind_done _ _ _ _ _ Hget), (bind_done _ _ _ _ _ Hget'), Hc, Hc'. rewrite decide_True by (unfold len; lia). reflexivity. }
      split; [done|]. split; [|done]. simpl. split; [done|]. rewrite Hof, Hof'. split; [done|]. intros [?|H]; [naive_solver|]. exfalso. apply Hlen. apply (f_equal length) in H. by rewrite !map_length in H.
  - eexists _, s, t. split; [reflexivity|]. split; [|done]. simpl. split; [done|]. split; [done|]. intros [[? ?]|(? & ? & ? & ? & (? & ? & ? & _))]; done.
  - eexists _, s, t. split; [reflexivity|]. split; [|done]. simpl. split; [done|]. split; [done|]. intros [[? ?]|(? & ? & ? & ? & (? & ? & ? & _))]; done.
  - eexists _, s, t. split; [reflexivity|]. split; [|done]. simpl. split; [done|]. tauto.
Qed.

(** ** Without the empty buffers *)
Notation solid t := (fun b => bytes_of t b <> []).
Lemma count_ok t s a l : R t s -> held t a l -> forall n i z, (i + n = length l)%nat -> 0 <= z -> z + Z.of_nat n <= UINT32_MAX ->
  count_non_empty a i n z s = Done (z + len (filter (solid t) (drop i l)), s).
Proof.
  intros HR Hh. induction n as [|n IH]; intros i z Hi Hz Hzn; simpl.
  - rewrite drop_ge by lia. unfold len. simpl. by rewrite Z.add_0_r.
  - destruct (lookup_lt_is_Some_2 l i) as [b Hb]; [lia|]. erewrite bind_done by (eapply (arr_read t s); [done|apply agrees_refl|done|done]).
    destruct (held_content t s a l _ b HR Hh Hb) as (E & _ & Hsz). rewrite (bind_done _ _ _ _ _ E). rewrite (drop_S l b i Hb).
    destruct (decide (bytes_of t b = [])) as [Eb|Eb].
    + rewrite filter_cons_False by naive_solver. rewrite Eb. apply IH; lia.
    + rewrite filter_cons_True by done. rewrite decide_True by (destruct (bytes_of t b); [done|simpl; lia]).
      rewrite u32_id, IH by lia. unfold len. simpl. f_equal. f_equal. lia.
Qed.
Lemma copy_solid_ok t s a l c o nd : R t s -> held t a l -> buffers nd = InNode (nnext s) 0 -> c = nnext s -> forall n i d f m, (i + n = length l)%nat ->
  (d + length (filter (solid t) (drop i l)) <= length m)%nat -> (forall b, b ∈ l -> (0 < f b)%nat) ->
  copy_non_empty a c i d n (at_ (nnext s) f (put_mem nd m) (bump o s)) = 
    Done (tt, at_ (nnext s) (adds f (filter (solid t) (drop i l))) (put_mem nd (ins d (filter (solid t) (drop i l)) m)) (bump o s)).
Proof.
  intros HR Hh Hnd ->. induction n as [|n IH]; intros i d f m Hi Hm Hf; simpl.
  - by rewrite drop_ge by lia.
  - destruct (lookup_lt_is_Some_2 l i) as [b Hb]; [lia|]. assert (b ∈ l) as Hbl by (by eapply elem_of_list_lookup_2).
    erewrite bind_done by (eapply (arr_read t s); [done|by eapply (agrees_new t)|done|done]).
    destruct (held_content t s a l _ b HR Hh Hb) as (E & _). erewrite bind_done.
    2:{ unfold CONSTBUFFER_GetContent in *. simpl. pose proof (Hf b Hbl). destruct (f b); [lia|]. destruct (refs s b); [done|]. simplify_eq. reflexivity. }
    assert (content s b = bytes_of t b) as ->. { unfold CONSTBUFFER_GetContent in E. destruct (refs s b); [done|]. by simplify_eq. }
    rewrite (drop_S l b i Hb) in *. destruct (decide (bytes_of t b = [])) as [Eb|Eb].
    + rewrite filter_cons_False in * by naive_solver. rewrite Eb. apply IH; [lia|done|done].
    + rewrite filter_cons_True in * by done. rewrite decide_True by (destruct (bytes_of t b); [done|simpl; lia]). simpl in Hm.
      erewrite bind_done by (apply write_at; [done|lia]). erewrite bind_done by (by apply inc_at, Hf). rewrite IH; [done|lia|rewrite insert_length; lia|].
      intros y Hy. unfold upd. case_decide; [lia|auto].
Qed.
Lemma makes_same t s a l : R t s -> held t a l -> makes t s (bind (inc_node a) (fun _ => ret (Some a))) l.
Proof.
  intros HR Hh. right. destruct (inc_ok t s a l HR Hh) as (s' & E & HR' & Hf & _). eexists a, s', _. rewrite (bind_done _ _ _ _ _ E). split; [done|]. destruct Hh as [_ Hl]. split_and!; [|exact HR'|done].
  split; [by right|]. unfold get_arr. by rewrite insert_id.
Qed.
Lemma filter_whole (P : nat -> Prop) `{!forall x, Decision (P x)} l : length (filter P l) = length l -> filter P l = l.
Proof.
  induction l as [|x l IH]; [done|]. rewrite filter_cons. case_decide; simpl; intros Hl; [f_equal; apply IH; lia|]. pose proof (filter_length P l). lia.
Qed.
Lemma makes_solid t s a l : R t s -> held t a l -> makes t s (constbuffer_array_remove_empty_buffers (Some a)) (filter (solid t) l).
Proof.
  intros HR Hh. destruct (arr_get t s a l HR Hh) as (nd & Hget & Hnd & Hc & Hmax). pose proof (arr_alive t s a l HR Hh) as Hal.
  assert (length (filter (solid t) l) <= length l)%nat as Hle by apply filter_length.
  unfold makes, constbuffer_array_remove_empty_buffers. setoid_rewrite (bind_done _ _ _ _ _ Hget). rewrite Hc, len_nat.
  pose proof (count_ok t s a l HR Hh (length l) 0%nat 0 eq_refl ltac:(lia) ltac:(unfold len in Hmax; lia)) as Hcount. rewrite drop_0, Z.add_0_l in Hcount.
  setoid_rewrite (bind_done _ _ _ _ _ Hcount). case_decide as H1; [|case_decide as H2].
  - assert (filter (solid t) l = l) as ->. { apply filter_whole. unfold len in H1. lia. }
    by apply makes_same.
  - assert (filter (solid t) l = []) as -> by (apply length_zero_iff_nil; unfold len in H2; lia). by apply (makes_empty t s).
  - match goal with |- context [new_node ?r ?c ?f] => destruct (new_node_cases r c f s) as [[o E]|[o E]] end; setoid_rewrite (bind_done _ _ _ _ _ E); [right|left; by exists o].
    destruct (gives_new t s o (filter (solid t) l) HR) as (t' & Hg & HR'); [intros x [_ Hx]%elem_of_list_filter; auto|unfold len in *; lia|].
    eexists _, _, t'. split; [|split_and!; [exact Hg|exact HR'|done]]. rewrite made_at by (unfold len; lia). rewrite !len_nat.
    erewrite bind_done by (apply (copy_solid_ok t s a l); try done; rewrite drop_0, replicate_length; lia). by rewrite drop_0, ins_full.
Qed.
Lemma sim_no_empty a : sim (NoEmpty a).
Proof.
  intros t s HR Ha. destruct a as [a|]; [|by by_refuses]. destruct Ha as [l Hh]. by_makes (filter (solid t) l); [done|by apply makes_solid|].
  intros x t' Hg. by rewrite (of_array_held _ _ a l) by done.
Qed.

(** ** Several arrays in one *)
Notation contents t := (fun a : option nat => a ≫= (seqs t !!.)).
Lemma total_count_ok t s arrays : R t s -> Forall (maybe_held t) arrays -> forall n i z, (i + n <= length arrays)%nat -> 0 <= z <= UINT32_MAX ->
  total_count arrays i n z s = Done (match mapM (contents t) (take n (drop i arrays)) with
                                     | None => None
                                     | Some ls => if decide (z + len (concat ls) <= UINT32_MAX) then Some (z + len (concat ls)) else None
                                     end, s).
Proof.
  intros HR Hall. induction n as [|n IH]; intros i z Hi Hz; simpl.
  - rewrite decide_True by (unfold len; simpl; lia). unfold len. simpl. by rewrite Z.add_0_r.
  - destruct (lookup_lt_is_Some_2 arrays i) as [x Hx]; [lia|]. rewrite (bind_done _ _ s x s) by (unfold item; by rewrite Hx).
    rewrite (drop_S arrays x i Hx). cbn [take mapM]. destruct x as [a|]; [|done]. 
    destruct (proj1 (Forall_lookup _ _) Hall _ _ Hx) as [l Hh]. destruct (arr_get t s a l HR Hh) as (nd & Hget & Hnd & Hc & Hmax).
    rewrite (bind_done _ _ _ _ _ Hget), Hc. cbn. destruct Hh as [_ Hl]. rewrite Hl. cbn.
    destruct (decide (z + len l <= UINT32_MAX)).
    + rewrite u32_id by (unfold len in *; lia). assert (z + len l <? len l = false) as -> by lia. rewrite IH by (unfold len in *; lia).
      destruct (mapM _ _) as [ls|]; [|done]. cbn. assert (len (l ++ concat ls) = len l + len (concat ls)) as -> by (unfold len; rewrite app_length; lia). by rewrite Z.add_assoc.
    + assert (u32 (z + len l) <? len l = true) as ->.
      { assert (0 <= len l) by (unfold len; lia). unfold u32, UINT32_MOD, UINT32_MAX in *. replace (z + len l) with (z + len l - 4294967296 + 1 * 4294967296) by lia. rewrite Z_mod_plus_full. rewrite Z.mod_small by lia. lia. }
      destruct (mapM _ _) as [ls|]; [|done]. cbn. rewrite decide_False; [done|]. unfold len in *. rewrite app_length. lia.
Qed.
Lemma copy_arrays_ok t s arrays nd o : R t s -> Forall (maybe_held t) arrays -> buffers nd = InNode (nnext s) 0 -> forall n i d f m ls, (i + n <= length arrays)%nat -> 
  mapM (contents t) (take n (drop i arrays)) = Some ls -> (d + length (concat ls) <= length m)%nat -> (forall b, (refs s b <= f b)%nat) ->
  copy_arrays arrays (nnext s) i d n (at_ (nnext s) f (put_mem nd m) (bump o s)) = Done (tt, at_ (nnext s) (adds f (concat ls)) (put_mem nd (ins d (concat ls) m)) (bump o s)).
Proof.
  intros HR Hall Hnd. induction n as [|n IH]; intros i d f m ls Hi Hls Hm Hf; simpl.
  - simpl in Hls. by injection Hls as <-.
  - destruct (lookup_lt_is_Some_2 arrays i) as [x Hx]; [lia|]. rewrite (bind_done _ _ _ x (at_ (nnext s) f (put_mem nd m) (bump o s))) by (unfold item; by rewrite Hx).
    rewrite (drop_S arrays x i Hx) in Hls. cbn [take mapM] in Hls. destruct x as [a|]; [|done]. 
    destruct (proj1 (Forall_lookup _ _) Hall _ _ Hx) as [l Hh]. destruct (arr_get t s a l HR Hh) as (na & Hget & Hna & Hc & Hmax).
    pose proof Hh as [_ Hl]. cbn in Hls. rewrite Hl in Hls. cbn in Hls. destruct (mapM _ _) as [ls'|] eqn:Els; [|done]. cbn in Hls. injection Hls as <-. simpl in Hm. rewrite app_length in Hm.
    assert (a <> nnext s) as Hne. { destruct (fresh_node t s HR). congruence. }
    erewrite bind_done by (unfold get_node, at_; simpl; by rewrite lookup_insert_ne, Hna by done). rewrite Hc, len_nat.
    erewrite bind_done.
    2:{ apply (copy_ok (read_buffer a) (nnext s) nd (bump o s) l); [done|lia| |].
        - intros b Hb. pose proof (arr_alive t s a l HR Hh b Hb). specialize (Hf b). lia.
        - intros j b f' m' Hj. eapply (arr_read t s); [done|by eapply (agrees_new t)|done|done]. }
    erewrite IH; [|lia|exact Els|rewrite ins_length; lia|intros b; rewrite adds_at; specialize (Hf b); lia].
    simpl. by rewrite adds_app, ins_app.
Qed.
Lemma contents_alive t s arrays ls : R t s -> Forall (maybe_held t) arrays -> mapM (contents t) arrays = Some ls -> forall b, b ∈ concat ls -> (0 < refs s b)%nat.
Proof.
  intros HR Hall. revert ls. induction Hall as [|x arrays Hx Hall IH]; intros ls Hls b Hb; simpl in Hls.
  - injection Hls as <-. by apply elem_of_nil in Hb.
  - destruct x as [a|]; [|done]. destruct Hx as [l Hh]. pose proof Hh as [_ Hl]. cbn in Hls. rewrite Hl in Hls. cbn in Hls. destruct (mapM _ _) as [ls'|] eqn:Els; [|done]. cbn in Hls. injection Hls as <-.
    simpl in Hb. apply elem_of_app in Hb as [Hb|Hb]; [by eapply arr_alive|by eapply IH].
Qed.
Lemma makes_concat t s arrays n ls : R t s -> Forall (maybe_held t) arrays -> is_u32 n -> n <= len arrays -> mapM (contents t) (take (Z.to_nat n) arrays) = Some ls -> len (concat ls) <= UINT32_MAX ->
  makes t s (constbuffer_array_create_from_array_array (Some arrays) n) (concat ls).
Proof.
  intros HR Hall [Hn0 Hn1] Hn Hls Hlen. unfold makes, constbuffer_array_create_from_array_array. case_decide as Hz.
  - subst n. simpl in Hls. injection Hls as <-. by apply (makes_empty t s).
  - pose proof (total_count_ok t s arrays HR Hall (Z.to_nat n) 0%nat 0 ltac:(unfold len in *; lia) ltac:(unfold UINT32_MAX; lia)) as Ht. rewrite drop_0, Hls, decide_True in Ht by lia.
    setoid_rewrite (bind_done _ _ _ _ _ Ht). rewrite Z.add_0_l.
    match goal with |- context [new_node ?r ?c ?f] => destruct (new_node_cases r c f s) as [[o E]|[o E]] end; setoid_rewrite (bind_done _ _ _ _ _ E); [right|left; by exists o].
    destruct (gives_new t s o (concat ls) HR) as (t' & Hg & HR'); [eapply contents_alive; [done| |exact Hls]; by apply Forall_take|done|].
    eexists _, _, t'. split; [|split_and!; [exact Hg|exact HR'|done]]. rewrite made_at by (unfold len; lia). rewrite !len_nat.
    erewrite bind_done by (apply (copy_arrays_ok t s arrays) with (ls := ls); [done|done|done|unfold len in *; lia|by rewrite drop_0|rewrite replicate_length; lia|done]). by rewrite ins_full.
Qed.
Lemma sim_concat l n : sim (Concat l n).
Proof.
  intros t s HR [Hn Hl]. destruct l as [l|].
  - destruct Hl as [Hlen Hall]. destruct (mapM (contents t) (take (Z.to_nat n) l)) as [ls|] eqn:Els; [destruct (decide (len (concat ls) <= UINT32_MAX)) as [Hmax|Hmax]|].
    + by_makes (concat ls); [|by apply makes_concat|].
      * simpl. rewrite Els. intros [[? _]|?]; [done|lia].
      * intros x t' Hg. exists ls. done.
    + by_refuses; [right; simpl; rewrite Els; lia|]. unfold refuses, constbuffer_array_create_from_array_array. rewrite decide_False.
      2:{ intros ->. simpl in Els. injection Els as <-. unfold len in Hmax. simpl in Hmax. unfold UINT32_MAX in Hmax. lia. }
      destruct Hn. rewrite (bind_done _ _ _ _ _ (total_count_ok t s l HR Hall (Z.to_nat n) 0%nat 0 ltac:(unfold len in *; lia) ltac:(unfold UINT32_MAX; lia))).
      rewrite drop_0, Els. by rewrite decide_False by lia.
    + by_refuses; [right; simpl; by rewrite Els|]. unfold refuses, constbuffer_array_create_from_array_array. rewrite decide_False.
      2:{ intros ->. done. }
      destruct Hn. rewrite (bind_done _ _ _ _ _ (total_count_ok t s l HR Hall (Z.to_nat n) 0%nat 0 ltac:(unfold len in *; lia) ltac:(unfold UINT32_MAX; lia))).
      by rewrite drop_0, Els.
  - destruct (decide (n = 0)) as [->|Hne].
    + by_makes (@nil nat); [intros [[_ ?]|H]; [done|]; simpl in H; unfold len in H; simpl in H; unfold UINT32_MAX in H; lia|by apply (makes_empty t s)|].
      intros x t' Hg. by exists [].
    + by_refuses; [left; done|]. unfold refuses. simpl. by rewrite decide_True.
Qed.
