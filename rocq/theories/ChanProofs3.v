(** Proofs about the channel: the threads. *)
From Verif Require Import Common Prog Conc ConcLists ChanModel ChanSpec ChanProofs ChanProofs2.
Local Open Scope Z_scope.

(** The thread: in a push or pull (before sm_exec_begin, after it, refused with or without it, accepted); in channel_open (granted, the flag set, done); in channel_close (not granted or done, granted, in the loop, waiting); executing operation k (c: in channel_close);
    in a cancellation (before and after sm_exec_begin, having taken k off the list, having marked it, returning, having found it taken off already). *)
Inductive lst := Out | Bz | Rq | In | InF (o : op) | Rf (o : op) | Ac (o : op) (x k : nat) | Op1 | Op2 | OpD | Cl | Cl0 | Cl1 | Cl2 | Ex (c : bool) (k st : nat) (r : cres)
  | C1 (k : nat) | C2 (k : nat) | C3 (k : nat) (marked : bool) | C4 (k : nat) | C5 (k : nat) (running : bool) | C2b (k : nat).
Definition inx (l : lst) : bool := match l with In | InF _ | C2 _ | C3 _ _ | C4 _ | C2b _ => true | _ => false end.
Definition isclose (l : lst) : bool := match l with Cl | Cl0 | Cl1 | Cl2 | Ex true _ _ _ => true | _ => false end.
Definition closer (l : lst) : bool := match l with Cl0 | Cl1 | Cl2 | Ex true _ _ _ => true | _ => false end.
Definition opener (l : lst) : bool := match l with Op1 | Op2 => true | _ => false end.
Definition canof (k : nat) (l : lst) : bool := match l with C1 j | C2 j | C3 j _ | C4 j | C5 j _ | C2b j => (j =? k)%nat | _ => false end.
Definition accof (x : nat) (l : lst) : bool := match l with Ac _ y _ => (y =? x)%nat | _ => false end.
(** k is in this place because of this thread *)
Definition mine (j : nat) (l : lst) (k : nat) (g : place) : Prop := match l with Ex _ k' st r => k = k' /\ g = PE j st r | C3 k' _ => k = k' /\ g = PC j | _ => False end.
Definition owners (G : list place) (ls : list lst) : Prop := forall k g j, owner g = Some j -> G !! k = Some g <-> exists l, ls !! j = Some l /\ mine j l k g.
Lemma mine_owner j l k g : mine j l k g -> owner g = Some j.
Proof. destruct l; cbn; try done; by intros [_ ->]. Qed.
Lemma own_move G ls i l l' k g g' : owners G ls -> ls !! i = Some l -> G !! k = Some g -> (forall k0 g0, mine i l k0 g0 <-> k0 = k /\ g0 = g /\ owner g = Some i) -> (forall k0 g0, mine i l' k0 g0 <-> k0 = k /\ g0 = g' /\ owner g' = Some i) ->
  (owner g = None \/ owner g = Some i) -> (owner g' = None \/ owner g' = Some i) -> owners (<[k := g']> G) (<[i := l']> ls).
Proof.
  intros Ho Hi Hg Hl Hl' Hg1 Hg2 k0 g0 j Hj. assert (k < length G)%nat as HkG by (by eapply lookup_lt_Some). assert (i < length ls)%nat as HiL by (by eapply lookup_lt_Some).
  destruct (decide (j = i)) as [->|Hne].
  - rewrite (list_lookup_insert ls) by done. transitivity (mine i l' k0 g0); [|naive_solver]. rewrite Hl'. destruct (decide (k0 = k)) as [->|Hk].
    + rewrite list_lookup_insert by done. split; [intros [= ->]; done|]. by intros (_&->&_).
    + rewrite list_lookup_insert_ne by done. rewrite (Ho k0 g0 i Hj). split; [|by intros (?&_)]. intros (l1&Hl1&Hm). simplify_eq. apply Hl in Hm as (?&_). done.
  - rewrite (list_lookup_insert_ne ls) by done. rewrite <-(Ho k0 g0 j Hj). destruct (decide (k0 = k)) as [->|Hk]; [|by rewrite list_lookup_insert_ne]. rewrite list_lookup_insert by done. split; intros Hx.
    + injection Hx as ->. destruct Hg2; congruence.
    + simplify_eq. destruct Hg1; congruence.
Qed.
Lemma own_same G ls i l l' : owners G ls -> ls !! i = Some l -> (forall k0 g0, mine i l k0 g0 <-> mine i l' k0 g0) -> owners G (<[i := l']> ls).
Proof.
  intros Ho Hi Hm k0 g0 j Hj. rewrite (Ho k0 g0 j Hj). assert (i < length ls)%nat as HiL by (by eapply lookup_lt_Some). destruct (decide (j = i)) as [->|Hne].
  - rewrite list_lookup_insert by done. split; intros (l1&H1&H2); simplify_eq; eexists; (split; [done|]); by apply Hm.
  - by rewrite list_lookup_insert_ne.
Qed.
Lemma own_grow G ls g : owners G ls -> owner g = None -> owners (G ++ [g]) ls.
Proof.
  intros Ho Hg k0 g0 j Hj. rewrite <-(Ho k0 g0 j Hj). split; [|by apply lookup_app_l_Some]. intros H. apply lookup_app_Some in H as [H|[_ H]]; [done|]. destruct (k0 - length G)%nat as [|z]; [|by destruct z]. by simplify_eq/=.
Qed.
Lemma own_set G ls k g g' : owners G ls -> G !! k = Some g -> owner g = None -> owner g' = None -> owners (<[k := g']> G) ls.
Proof.
  intros Ho Hg E1 E2 k0 g0 j Hj. rewrite <-(Ho k0 g0 j Hj). destruct (decide (k0 = k)) as [->|Hk]; [|by rewrite list_lookup_insert_ne]. rewrite list_lookup_insert by (by eapply lookup_lt_Some). split; intros Hx; simplify_eq; congruence.
Qed.

(** The sum of what operations still owe to sm_exec_end *)
Definition owes (o : chop) (g : place) : nat := match g with PD => 0 | PE _ st _ => if (st <=? 2)%nat then length (cids o) else 0 | _ => length (cids o) end.
Fixpoint total (os : list chop) (gs : list place) : nat := match os, gs with o :: os, g :: gs => (owes o g + total os gs)%nat | _, _ => 0%nat end.
Lemma total_upd O G k o g o' g' : O !! k = Some o -> G !! k = Some g -> (total (<[k := o']> O) (<[k := g']> G) + owes o g = total O G + owes o' g')%nat.
Proof.
  revert G k. induction O as [|o0 O IH]; intros [|g0 G] [|k] Ho Hg; try done; simplify_eq/=; [cbn; lia|]. specialize (IH G k Ho Hg). change (<[S k := o']> (o0 :: O)) with (o0 :: <[k := o']> O). change (<[S k := g']> (g0 :: G)) with (g0 :: <[k := g']> G). cbn. lia.
Qed.
Lemma total_app O G o g : length G = length O -> (total (O ++ [o]) (G ++ [g]) = total O G + owes o g)%nat.
Proof. revert G. induction O as [|o0 O IH]; intros [|g0 G] Hl; try done; cbn in *; [lia|]. rewrite IH by lia. lia. Qed.
Lemma total_ge O G k o g : O !! k = Some o -> G !! k = Some g -> (owes o g <= total O G)%nat.
Proof. revert G k. induction O as [|o0 O IH]; intros [|g0 G] [|k] Ho Hg; try done; simplify_eq/=; [cbn; lia|]. specialize (IH G k Ho Hg). lia. Qed.
Lemma total_ext O G G' : length G' = length G -> (forall k o g g', O !! k = Some o -> G !! k = Some g -> G' !! k = Some g' -> owes o g = owes o g') -> total O G' = total O G.
Proof.
  revert G G'. induction O as [|o0 O IH]; intros [|g0 G] [|g1 G'] Hl H; try done; cbn in *; try lia. rewrite (IH G G') by (try lia; intros k; apply (H (S k))). f_equal. symmetry. by apply (H 0%nat).
Qed.
Lemma total_zero O G : (forall k o g, O !! k = Some o -> G !! k = Some g -> owes o g = 0%nat) -> total O G = 0%nat.
Proof. revert G. induction O as [|o0 O IH]; intros [|g0 G] H; try done. cbn. rewrite (H 0%nat o0 g0), IH; [done| |done..]. intros k. apply (H (S k)). Qed.

Section proofs.
Context (m : mode) (Hm : m <> Wild).
Definition refusal (j : nat) (h : list event) (o : op) : Prop := match o with Push _ alloc _ | Pull alloc _ => alloc = false \/ not_open_since j h | _ => False end.
Definition fine (s : st) (j : nat) (l : lst) : Prop :=
  match l with
  | InF o | Rf o => refusal j (hist s) o
  | Ac o x k => match o with Push d _ _ => Pushed x k d ∈ hist s | Pull _ _ => Pulled x k ∈ hist s | _ => False end
  | Op2 => is_open s = true
  | OpD => opened_since j (hist s)
  | Cl1 => is_open s = false
  | Cl2 => is_open s = false /\ local s = []
  | Ex c k st r => c = true -> is_open s = false
  | C1 k | C2 k => cancel_called (hist s) k
  | C3 k b => cancel_called (hist s) k /\ (b = true -> exists o, ops s !! k = Some o /\ result o = CANCELLED)
  | C2b k => cancel_called (hist s) k /\ k ∉ queue s /\ (k < length (ops s))%nat
  | C4 k | C5 k true => exists o, ops s !! k = Some o /\ result o = CANCELLED
  | _ => True
  end.
Record inv (M : pairs) (G : list place) (s : st) (ls : list lst) : Prop := {
  i_store : store (hist s) M G (ops s) (queue s) (local s) (work s) (next s);
  i_own : owners G ls;
  i_ex : (execs s = cnt inx ls + total (ops s) G)%nat;
  i_can : forall k o, ops s !! k = Some o -> cans o = cnt (canof k) ls;
  i_cank : forall k, (length (ops s) <= k)%nat -> cnt (canof k) ls = 0%nat;
  i_cl : closes s = cnt isclose ls;
  i_clr : cnt closer ls = if (sm s =? 3)%nat then 1%nat else 0%nat;
  i_opn : cnt opener ls = if (sm s =? 1)%nat then 1%nat else 0%nat;
  i_ret : forall x, (cnt (accof x) ls + answered x (hist s) = if (x <? next s)%nat then 1 else 0)%nat;
  i_open : sm s = 2%nat -> is_open s = true;
  i_q : is_open s = false -> queue s = [];
  i_sm : execs s <> 0%nat -> sm s = 2%nat \/ sm s = 3%nat;
  i_loc : local s <> [] -> sm s = 3%nat;
  i_now : open_now (hist s) = (sm s =? 2)%nat;
  i_alive : alive (hist s) = (sm s =? 2)%nat || (sm s =? 3)%nat;
  i_cng : sm s = 3%nat -> Closing ∈ hist s;
  i_calm : m = NoReleases -> (closes s <> 0%nat -> forall k o, ops s !! k = Some o -> cans o = 0%nat) /\ forall k o, ops s !! k = Some o -> urefs o <> 0%nat;
  i_calm' : m <> NoReleases -> forall k o, ops s !! k = Some o -> cans o = 0%nat;
  i_done : forall k, cancel_done (hist s) k -> (k < length (ops s))%nat;
  i_fine : forall j l, ls !! j = Some l -> fine s j l;
  i_ok : all_ok (hist s) }.
Definition Inv (s : st) (ls : list lst) : Prop := exists M G, inv M G s ls.
Definition blk (i : nat) (l : lst) (s : st) : Prop := l = Cl2 /\ execs s <> 0%nat.
Definition shape (o : op) (p : prog st res) (l : lst) : Prop := l <> Out /\ (l = Cl2 -> o = Close).
Notation runs := (runs_ok (channel m) Inv (.= Out) blk shape).
Notation wpa := (wpa Inv blk shape).

(** What stays true of the other threads *)
Record le (i : nat) (s s' : st) : Prop := {
  le_hist : exists es, hist s' = es ++ hist s /\ forall j o, Called j o ∈ es -> j = i;
  le_ops : forall k o, ops s !! k = Some o -> result o = CANCELLED -> exists o', ops s' !! k = Some o' /\ result o' = CANCELLED;
  le_q : forall k, (k < length (ops s))%nat -> k ∈ queue s' -> k ∈ queue s;
  le_len : (length (ops s) <= length (ops s'))%nat }.
Lemma fine_le i s s' j l : le i s s' -> j <> i -> (closer l = true -> is_open s' = is_open s /\ local s' = local s) -> (opener l = true -> is_open s' = is_open s) -> fine s j l -> fine s' j l.
Proof.
  intros [(es&Hes&Hc) Ho Hq Hlen] Hne H1 H2. assert (forall e, e ∈ hist s -> e ∈ hist s') as Hin by (intros e He; rewrite Hes; apply elem_of_app; by right).
  assert (forall o, refusal j (hist s) o -> refusal j (hist s') o) as Hr.
  { assert (not_open_since j (hist s) -> not_open_since j (hist s')) as Hn. { intros (h1&h2&E&Hno&Hop). exists (es ++ h1), h2. split_and!; [by rewrite Hes, E, app_assoc| |done]. intros o [He|He]%elem_of_app; [by apply Hc in He|by apply (Hno o)]. }
    intros []; cbn; try done; intros [?|?]; auto. }
  assert (opened_since j (hist s) -> opened_since j (hist s')) as Hop.
  { intros (h1&h2&E&Hno&Hop). exists (es ++ h1), h2. split_and!; [by rewrite Hes, E, app_assoc| |apply elem_of_app; by right]. intros o [He|He]%elem_of_app; [by apply Hc in He|by apply (Hno o)]. }
  assert (forall k, cancel_called (hist s) k -> cancel_called (hist s') k) as Hcc by (intros k (i0&sc&?); exists i0, sc; auto).
  assert (forall k, (exists o, ops s !! k = Some o /\ result o = CANCELLED) -> exists o, ops s' !! k = Some o /\ result o = CANCELLED) as Hrr by (intros k (o&?&?); eauto).
  destruct l as [| | | |o|o|o x k| | | | | | | |[] k st r|k|k|k b|k|k []|k]; cbn [fine closer opener] in *; auto.
  - destruct o; auto.
  - rewrite (H2 eq_refl). done.
  - destruct (H1 eq_refl) as [E1 E2]. by rewrite ?E1, ?E2.
  - destruct (H1 eq_refl) as [E1 E2]. by rewrite ?E1, ?E2.
  - destruct (H1 eq_refl) as [E1 E2]. by rewrite ?E1, ?E2.
  - done.
  - intros [? Hx]. split; auto.
  - intros (?&?&?). split_and!; [by auto| |by lia]. intros Hx. auto.
Qed.
Lemma other_closer M G s ls i l j lj : inv M G s ls -> ls !! i = Some l -> closer l = true -> ls !! j = Some lj -> j <> i -> closer lj = false.
Proof. intros HI Hi Hl Hj Hne. destruct (closer lj) eqn:E; [|done]. pose proof (cnt_two closer ls i j l lj (not_eq_sym Hne) Hi Hj Hl E). pose proof (i_clr _ _ _ _ HI). destruct (sm s =? 3)%nat; lia. Qed.
Lemma other_opener M G s ls i l j lj : inv M G s ls -> ls !! i = Some l -> opener l = true -> ls !! j = Some lj -> j <> i -> opener lj = false.
Proof. intros HI Hi Hl Hj Hne. destruct (opener lj) eqn:E; [|done]. pose proof (cnt_two opener ls i j l lj (not_eq_sym Hne) Hi Hj Hl E). pose proof (i_opn _ _ _ _ HI). destruct (sm s =? 1)%nat; lia. Qed.
Lemma no_closer M G s ls j lj : inv M G s ls -> sm s <> 3%nat -> ls !! j = Some lj -> closer lj = false.
Proof. intros HI Hs Hj. destruct (closer lj) eqn:E; [|done]. pose proof (cnt_pos closer ls j lj Hj E). pose proof (i_clr _ _ _ _ HI). destruct (Nat.eqb_spec (sm s) 3); lia. Qed.
Lemma no_opener M G s ls j lj : inv M G s ls -> sm s <> 1%nat -> ls !! j = Some lj -> opener lj = false.
Proof. intros HI Hs Hj. destruct (opener lj) eqn:E; [|done]. pose proof (cnt_pos opener ls j lj Hj E). pose proof (i_opn _ _ _ _ HI). destruct (Nat.eqb_spec (sm s) 1); lia. Qed.
Lemma called_lt M G s ls x : inv M G s ls -> called_back (hist s) x -> (x < next s)%nat.
Proof.
  intros HI (r&pl&ps&d&H). pose proof (i_ok _ _ _ _ HI) as Hok. assert (exists k, handle (hist s) x k) as [k Hk]; [|by eapply (s_hlt _ _ _ _ _ _ _ _ (i_store _ _ _ _ HI))]. revert Hok H. clear. induction (hist s) as [|e h IH]; intros Hok H; [by inversion H|].
  destruct Hok as [He Hok]. assert (forall k, handle h x k -> handle (e :: h) x k) as Hh by (intros k [?|[d0 ?]]; [left; by right|right; exists d0; by right]). apply elem_of_cons in H as [<-|H].
  - destruct He as (_&(k&Hk&_)&_). exists k. auto.
  - destruct (IH Hok H) as [k Hk]. exists k. auto.
Qed.
Lemma op_of M G s ls k g : inv M G s ls -> G !! k = Some g -> exists o, ops s !! k = Some o /\ good (hist s) M k o g.
Proof.
  intros HI Hg. pose proof (i_store _ _ _ _ HI) as Hs. assert (is_Some (ops s !! k)) as [o Ho] by (apply lookup_lt_is_Some; rewrite <-(s_len _ _ _ _ _ _ _ _ Hs); by eapply lookup_lt_Some). exists o. split; [done|]. by eapply (s_good _ _ _ _ _ _ _ _ Hs).
Qed.
Lemma place_of M G s ls k o : inv M G s ls -> ops s !! k = Some o -> exists g, G !! k = Some g /\ good (hist s) M k o g.
Proof.
  intros HI Ho. pose proof (i_store _ _ _ _ HI) as Hs. assert (is_Some (G !! k)) as [g Hg] by (apply lookup_lt_is_Some; rewrite (s_len _ _ _ _ _ _ _ _ Hs); by eapply lookup_lt_Some). exists g. split; [done|]. by eapply (s_good _ _ _ _ _ _ _ _ Hs).
Qed.
Lemma self_alive o : self o = true -> freed o = false.
Proof. unfold freed. by intros ->. Qed.
(** An operation that is being cancelled *)
Lemma cancel_place M G s ls i l k : inv M G s ls -> ls !! i = Some l -> canof k l = true -> exists o g, ops s !! k = Some o /\ G !! k = Some g /\ good (hist s) M k o g /\ freed o = false /\ cans o <> 0%nat /\ m = NoReleases /\ (g = PQ \/ g = PW \/ exists j, g = PC j).
Proof.
  intros HI Hi Hl. pose proof (cnt_pos (canof k) ls i l Hi Hl) as Hp. assert (k < length (ops s))%nat as Hk. { destruct (decide (k < length (ops s))%nat); [done|]. rewrite (i_cank _ _ _ _ HI k) in Hp by lia. lia. }
  destruct (lookup_lt_is_Some_2 _ _ Hk) as [o Ho]. destruct (place_of _ _ _ _ _ _ HI Ho) as (g&Hg&Hgood). pose proof (i_can _ _ _ _ HI _ _ Ho) as Hc.
  assert (m = NoReleases) as Hmode. { assert (m = NoReleases \/ m <> NoReleases) as [|E] by (destruct m; auto); [done|]. pose proof (i_calm' _ _ _ _ HI E _ _ Ho). lia. }
  exists o, g. split_and!; try done; [| lia |].
  - unfold freed. pose proof (proj2 (i_calm _ _ _ _ HI Hmode) _ _ Ho) as Hu. destruct (Nat.eqb_spec (urefs o) 0); [lia|]. by rewrite andb_comm.
  - destruct g as [| | |j|j st r|]; [by left| |by right; left|by right; right; exists j|..].
    + exfalso. assert (sm s = 3%nat) as E3. { apply (i_loc _ _ _ _ HI). intros E. pose proof (proj2 (s_l _ _ _ _ _ _ _ _ (i_store _ _ _ _ HI)) k) as [_ Hx]. specialize (Hx Hg). rewrite E in Hx. by inversion Hx. }
      pose proof (i_clr _ _ _ _ HI) as Hcc. rewrite E3 in Hcc. cbn in Hcc. destruct (cnt_ex closer ls) as (j&lj&Hj&Hcj); [lia|]. assert (isclose lj = true) as Hcl by (by destruct lj as [| | | | | | | | | | | | | |[]| | | | | |]). pose proof (cnt_pos isclose ls j lj Hj Hcl). rewrite <-(i_cl _ _ _ _ HI) in *.
      pose proof (proj1 (i_calm _ _ _ _ HI Hmode) ltac:(lia) _ _ Ho). lia.
    + destruct Hgood as (_&_&_&_&?&_). lia.
    + destruct Hgood as (_&_&?&_). lia.
Qed.

(** One step of thread i *)
Record phase (s : st) : Prop := {
  p_open : sm s = 2%nat -> is_open s = true;
  p_q : is_open s = false -> queue s = [];
  p_sm : execs s <> 0%nat -> sm s = 2%nat \/ sm s = 3%nat;
  p_loc : local s <> [] -> sm s = 3%nat;
  p_now : open_now (hist s) = (sm s =? 2)%nat;
  p_alive : alive (hist s) = (sm s =? 2)%nat || (sm s =? 3)%nat;
  p_cng : sm s = 3%nat -> Closing ∈ hist s }.
Lemma inv_phase M G s ls : inv M G s ls -> phase s.
Proof. intros []. by split. Qed.
Notation one b := (Nat.b2n b).
Lemma inv_gen M G s ls i l l' M' G' s' : inv M G s ls -> ls !! i = Some l ->
  store (hist s') M' G' (ops s') (queue s') (local s') (work s') (next s') -> owners G' (<[i := l']> ls) ->
  (execs s' + one (inx l) + total (ops s) G = execs s + one (inx l') + total (ops s') G')%nat ->
  (forall k o', ops s' !! k = Some o' -> match ops s !! k with Some o => (cans o' + one (canof k l) = cans o + one (canof k l'))%nat | None => cans o' = 0%nat /\ canof k l' = false end) ->
  (length (ops s) <= length (ops s'))%nat -> (forall k, canof k l' = true -> (k < length (ops s))%nat) ->
  (closes s' + one (isclose l) = closes s + one (isclose l'))%nat ->
  (one (closer l') + (if (sm s =? 3)%nat then 1 else 0) = one (closer l) + (if (sm s' =? 3)%nat then 1 else 0))%nat ->
  (one (opener l') + (if (sm s =? 1)%nat then 1 else 0) = one (opener l) + (if (sm s' =? 1)%nat then 1 else 0))%nat ->
  (forall x, one (accof x l') + answered x (hist s') + (if (x <? next s)%nat then 1 else 0) = one (accof x l) + answered x (hist s) + (if (x <? next s')%nat then 1 else 0))%nat ->
  phase s' ->
  (m = NoReleases -> (closes s' <> 0%nat -> forall k o, ops s' !! k = Some o -> cans o = 0%nat) /\ forall k o, ops s' !! k = Some o -> urefs o <> 0%nat) -> (m <> NoReleases -> forall k o, ops s' !! k = Some o -> cans o = 0%nat) ->
  (forall k, cancel_done (hist s') k -> (k < length (ops s'))%nat) ->
  le i s s' -> (forall j lj, ls !! j = Some lj -> j <> i -> closer lj = true -> is_open s' = is_open s /\ local s' = local s) -> (forall j lj, ls !! j = Some lj -> j <> i -> opener lj = true -> is_open s' = is_open s) ->
  fine s' i l' -> all_ok (hist s') -> Inv s' (<[i := l']> ls).
Proof.
  intros HI Hi Hst Hown Hex Hcan Hlen Hcank Hcl Hclr Hopn Hret [] Hcalm Hcalm' Hdone Hle F1 F2 Hfine Hok. exists M', G'.
  pose proof (cnt_upd inx ls i l l' Hi) as U1. pose proof (cnt_upd isclose ls i l l' Hi) as U2. pose proof (cnt_upd closer ls i l l' Hi) as U3. pose proof (cnt_upd opener ls i l l' Hi) as U4.
  pose proof (fun k => cnt_upd (canof k) ls i l l' Hi) as U5. pose proof (fun x => cnt_upd (accof x) ls i l l' Hi) as U6. destruct HI. split; try done.
  - clear -U1 Hex i_ex0. lia.
  - intros k o' Ho'. specialize (Hcan k o' Ho'). specialize (U5 k). destruct (ops s !! k) as [o|] eqn:Eo; [specialize (i_can0 k o Eo); clear -Hcan U5 i_can0; lia|]. destruct Hcan as [-> E]. rewrite E in U5. specialize (i_cank0 k). rewrite i_cank0 in U5 by (by apply lookup_ge_None). clear -U5. cbn in U5. lia.
  - intros k Hk. specialize (U5 k). rewrite i_cank0 in U5 by (clear -Hk Hlen; lia). destruct (canof k l') eqn:E; [apply Hcank in E; clear -E Hk Hlen; lia|]. clear -U5. cbn in U5. lia.
  - clear -U2 Hcl i_cl0. lia.
  - clear -U3 Hclr i_clr0. lia.
  - clear -U4 Hopn i_opn0. lia.
  - intros x. specialize (Hret x). specialize (U6 x). specialize (i_ret0 x). clear -Hret U6 i_ret0. lia.
  - apply thr_upd; [done|]. intros j lj Hj Hne. eapply fine_le; try done; [by eauto..|]. by apply i_fine0.
Qed.

(** What happens to operations, but for their acceptance *)
Definition plain (e : event) : Prop := match e with Withdrawn _ _ | Callback _ _ _ _ _ => True | _ => False end.
Definition keep (O O' : list chop) : Prop := length O' = length O /\ forall k o', O' !! k = Some o' -> exists o, O !! k = Some o /\ cans o' = cans o /\ urefs o' = urefs o /\ (result o = CANCELLED -> result o' = CANCELLED).
Lemma keep_refl O : keep O O.
Proof. split; [done|]. intros k o Ho. by exists o. Qed.
Lemma keep_upd O k o o' : O !! k = Some o -> cans o' = cans o -> urefs o' = urefs o -> (result o = CANCELLED -> result o' = CANCELLED) -> keep O (<[k := o']> O).
Proof. intros Ho E1 E2 E3. split; [by rewrite insert_length|]. intros j oj Hj. apply lookup_upd in Hj as [(->&->&_)|[Hne Hj]]; [by exists o|by exists oj]. Qed.
Lemma inv_mid M G s ls i l l' G' s' es : inv M G s ls -> ls !! i = Some l ->
  sm s' = sm s -> is_open s' = is_open s -> closes s' = closes s -> next s' = next s -> (forall k, k ∈ queue s' -> k ∈ queue s) -> (local s = [] -> local s' = []) -> (closer l = true \/ local s' = local s) -> hist s' = es ++ hist s -> Forall plain es ->
  store (hist s') M G' (ops s') (queue s') (local s') (work s') (next s') -> owners G' (<[i := l']> ls) ->
  (execs s' + one (inx l) + total (ops s) G = execs s + one (inx l') + total (ops s') G')%nat -> keep (ops s) (ops s') ->
  (forall k, canof k l' = canof k l) -> isclose l' = isclose l -> closer l' = closer l -> opener l' = opener l -> (forall x, accof x l' = accof x l) ->
  (execs s' <> 0%nat -> execs s <> 0%nat \/ sm s = 2%nat) -> fine s' i l' -> all_ok (hist s') -> Inv s' (<[i := l']> ls).
Proof.
  intros HI Hi E1 E2 E3 E4 Hq Hl Hcl Hh Hes Hst Hown Hex [Hk1 Hk2] C1 C2 C3 C4 C5 Hsm Hfine Hok.
  assert (open_now (es ++ hist s) = open_now (hist s) /\ alive (es ++ hist s) = alive (hist s) /\ forall x, answered x (es ++ hist s) = answered x (hist s)) as (N1&N2&N3). { clear -Hes. induction Hes as [|e es He _ IH]; [done|]. by destruct e. }
  assert (forall k, cancel_done (es ++ hist s) k -> cancel_done (hist s) k) as N4. { intros k (i0&sc&[H|H]%elem_of_app); [|by exists i0, sc]. by apply (proj1 (Forall_forall _ _) Hes) in H. }
  pose proof HI as HI0. destruct HI. eapply inv_gen; [exact HI0|exact Hi|exact Hst|exact Hown|exact Hex| | | | | | | | | | | | | | |exact Hfine|exact Hok]; rewrite ?E1, ?E3, ?E4, ?C2, ?C3, ?C4, ?Hh, ?N1, ?N2; try done.
  - intros k o' Ho'. destruct (Hk2 _ _ Ho') as (o&->&->&_). by rewrite C1.
  - by rewrite Hk1.
  - intros k. rewrite C1. intros Hc. destruct (decide (k < length (ops s))%nat) as [|Hn]; [done|]. pose proof (cnt_pos (canof k) ls i l Hi Hc) as Hp. rewrite i_cank0 in Hp by (clear -Hn; lia). clear -Hp. lia.
  - intros x. by rewrite C5, N3.
  - split; rewrite ?E1, ?E2, ?Hh, ?N1, ?N2; try done.
    + intros H. specialize (i_q0 H). rewrite i_q0 in Hq. destruct (queue s') as [|z q]; [done|]. specialize (Hq z ltac:(left)). by inversion Hq.
    + intros H. destruct (Hsm H); [auto|by left].
    + intros H. apply i_loc0. intros H'. auto.
    + intros H. apply elem_of_app. right. auto.
  - intros Hmo. destruct (i_calm0 Hmo) as [A1 A2]. split; [intros Hc k o' Ho'|intros k o' Ho']; destruct (Hk2 _ _ Ho') as (o&Ho&Ec&Eu&_); [rewrite Ec|rewrite Eu]; eauto.
  - intros Hmo k o' Ho'. destruct (Hk2 _ _ Ho') as (o&Ho&Ec&Eu&_). rewrite Ec. eauto.
  - intros k Hk. rewrite Hk1. auto.
  - split.
    + exists es. split; [done|]. intros j o H. by apply (proj1 (Forall_forall _ _) Hes) in H.
    + intros k o Ho Hr. assert (is_Some (ops s' !! k)) as [o' Ho'] by (apply lookup_lt_is_Some; rewrite Hk1; by eapply lookup_lt_Some). exists o'. split; [done|]. destruct (Hk2 _ _ Ho') as (o1&Ho1&_&_&H1). simplify_eq. auto.
    + auto.
    + by rewrite Hk1.
  - intros j lj Hj Hne Hc. split; [done|]. destruct Hcl as [Hcl|]; [|done]. pose proof (other_closer _ _ _ _ _ _ _ _ HI0 Hi Hcl Hj Hne). congruence.
Qed.
End proofs.
