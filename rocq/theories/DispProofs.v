(** Proofs about TCALL_DISPATCHER. *)
From Verif Require Import Common Prog Conc DispModel DispSpec.
Local Open Scope Z_scope.

Inductive pc :=
| Out | Back (o : op)
| R0 (f x : Z) | R1 (h : handle) (f x : Z) | R2 (h : handle) (f x : Z) | R3 (h : handle) (f x : Z) | R4 (h : handle) (f x : Z)
| U1 (h : handle) | U2 (h : handle) | U3 (h : handle) | U4 (h : handle) | U5 (h : handle)
| D1 (a : Z) | D2 (a : Z) | D3 (a : Z) (l : list target) (cur : option target) | D4 (a : Z) (l : list target) (t : target) | D5 (a : Z) (l : list target) (t : target) | D6 (a : Z)
| F0 | F1 | F2 (t : option target) | F3 (t : target) | F4.
Definition holdsX (l : pc) : bool := match l with R2 _ _ _ | R3 _ _ _ | U2 _ | U3 _ => true | _ => false end.
Definition holdsS (l : pc) : bool := match l with D2 _ | D3 _ _ _ | D4 _ _ _ | D5 _ _ _ => true | _ => false end.
Definition held (l : pc) : option handle := match l with R3 h _ _ | R4 h _ _ | U1 h | U2 h => Some h | _ => None end.
Definition loose (l : pc) : option handle := match l with R1 h _ _ | R2 h _ _ | U3 h | U4 h => Some h | _ => None end.
Definition closes (l : pc) : bool := match l with F0 | F1 | F2 _ | F3 _ | F4 => true | _ => false end.

Definition calls_ok (a : Z) (i : nat) (s : disp) (l : list target) : Prop := invoked i (hist s) = (fun t => (t, a)) <$> l.
(** What is known in a thread that has come to l. *)
Definition tinv (s : disp) (i : nat) (l : pc) : Prop :=
  match l with
  | R1 h _ _ | R2 h _ _ => h ∉ th <$> regs s
  | R3 h f x | R4 h f x => Target h f x ∈ regs s
  | U3 h | U4 h | U5 h => h ∈ th <$> regs s /\ h ∉ th <$> targets s
  | D1 a | D2 a => calls_ok a i s []
  | D3 a l cur => calls_ok a i s l /\ exists rest, targets s = l ++ rest /\ cur = head rest
  | D4 a l t | D5 a l t => calls_ok a i s (l ++ [t]) /\ (l ++ [t]) `prefix_of` targets s
  | D6 a => exists l, calls_ok a i s l /\ l `sublist_of` regs s /\ forall t, t ∈ must i (hist s) -> t ∈ th <$> l
  | _ => True
  end.
Fixpoint all_ok (order : list target) (h : list event) : Prop := match h with [] => True | e :: h => event_ok order e h /\ all_ok order h end.
Record InvA (s : disp) (ls : list pc) : Prop := {
  a_alive : dead s = false;
  a_writer : forall i, writer s = Some i <-> exists l, ls !! i = Some l /\ holdsX l = true;
  a_readers : forall i, i ∈ readers s <-> exists l, ls !! i = Some l /\ holdsS l = true;
  a_lock : writer s <> None -> readers s = [];
  a_held : th <$> targets s ≡ₚ handles (hist s) ++ omap held ls;
  a_nodes : elements (nodes s) ≡ₚ (th <$> targets s) ++ omap loose ls;
  a_fresh : forall h, h ∈ nodes s \/ h ∈ th <$> regs s -> (h < fresh s)%nat;
  a_sub : targets s `sublist_of` regs s;
  a_regs : NoDup (th <$> regs s);
  a_thr : forall i l, ls !! i = Some l -> tinv s i l /\ closes l = false;
  a_gone : forall h, h ∈ unregistered (hist s) -> h ∈ th <$> regs s /\ h ∉ th <$> targets s;
  a_prog : forall i h, (i, h) ∈ in_progress (hist s) -> exists a l t, ls !! i = Some (D4 a l t) /\ th t = h;
  a_run : forall i l, ls !! i = Some l -> l <> Out -> i ∈ running (hist s);
  a_ev : all_ok (regs s) (hist s);
}.
Record InvB (s : disp) (ls : list pc) : Prop := {
  b_ev : all_ok (regs s) (hist s);
  b_regs : NoDup (th <$> regs s);
  b_nodup : NoDup (th <$> targets s);
  b_thr : exists i l, ls !! i = Some l /\ (forall j l', ls !! j = Some l' -> j <> i -> l' = Out) /\
    match l with
    | F0 => elements (nodes s) ≡ₚ th <$> targets s /\ writer s = None /\ readers s = []
    | F1 => elements (nodes s) ≡ₚ th <$> targets s /\ dead s = true
    | F2 t => elements (nodes s) ≡ₚ th <$> targets s /\ dead s = true /\ t = head (targets s)
    | F3 t => elements (nodes s) ≡ₚ th t :: (th <$> targets s) /\ dead s = true
    | F4 | Out => elements (nodes s) = []
    | _ => False
    end;
}.
Definition Inv (s : disp) (ls : list pc) : Prop := if given_up (hist s) then InvB s ls else InvA s ls.
Definition blk (i : nat) (l : pc) (s : disp) : Prop := l <> Out /\ closes l = false /\ holdsX l = false /\ holdsS l = false /\ (writer s <> None \/ readers s <> []).
(** Only a registration changes the order. *)
Definition shape (o : op) (p : prog disp res) (l : pc) : Prop :=
  match p with
  | Act m k => forall s x s', m s = Done (x, s') -> regs s' = regs s \/ exists f c mem h, o = Register true f c mem /\ regs s' = regs s ++ [Target h f c]
  | _ => True
  end.
Ltac shp := cbn [shape]; intros ? ? ? E;
  unfold malloc_target, acquire_exclusive, insert_tail, release_exclusive, remove_entry, free_target, acquire_shared, flink, begin_target, end_target, release_shared, srw_deinit in E; repeat case_match; simplify_eq; eauto 10.
Notation runs := (runs_ok dispatcher Inv (.= Out) blk shape).

(** Histories. *)
Lemma must_handles i h t : t ∈ must i h -> t ∈ handles h.
Proof.
  induction h as [|e h IH]; [done|]. destruct e as [j [d f c mem|[] [u|]|d a|]|j [d f c mem|[] [u|]|d a|] [[r|]|r]|j u a|j u]; cbn [must handles]; auto.
  - rewrite !elem_of_list_filter. naive_solver.
  - case_decide; auto.
  - intros. right. auto.
Qed.
Lemma all_ok_mono order order' h : order `prefix_of` order' -> all_ok order h -> all_ok order' h.
Proof.
  intros [k ->]. induction h as [|e h IH]; [done|]. intros [He Hh]. split; [|auto]. clear IH Hh.
  destruct e as [j [d f c mem|[] [u|]|[] a|]|j [d f c mem|[] [u|]|[] a|] r|j u a|j u]; try done; cbn [event_ok] in *.
  - destruct (d && negb (f =? 0) && mem); [|done]. destruct He as (t&?&?&?). exists t. rewrite elem_of_app. auto.
  - destruct He as (?&?&?&?). split_and!; auto. by apply sublist_inserts_r.
Qed.
Lemma all_ok_at order pre e h : all_ok order (pre ++ e :: h) -> event_ok order e h.
Proof. induction pre as [|x pre IH]; cbn; intros [? ?]; auto. Qed.

(** Lists of local states. *)
Lemma upd_some {A} (ls : list A) i (l' : A) j lj : <[i := l']> ls !! j = Some lj -> (j = i /\ lj = l') \/ (j <> i /\ ls !! j = Some lj).
Proof. intros [(<-&<-&_)|(?&?)]%list_lookup_insert_Some; auto. Qed.
Lemma omap_upd {A B} (f : A -> option B) (ls : list A) i l l' : ls !! i = Some l -> option_list (f l) ++ omap f (<[i := l']> ls) ≡ₚ option_list (f l') ++ omap f ls.
Proof.
  revert i. induction ls as [|x ls IH]; intros [|i] Hi; simplify_eq/=.
  - destruct (f l), (f l'); cbn; try done. apply Permutation_swap.
  - specialize (IH i Hi). destruct (f x) as [y|]; [|done]. rewrite <-!Permutation_middle. by rewrite IH.
Qed.
Lemma omap_upd0 {A B} (f : A -> option B) (ls : list A) i l l' : ls !! i = Some l -> f l = f l' -> omap f (<[i := l']> ls) ≡ₚ omap f ls.
Proof. intros Hi E. pose proof (omap_upd f ls i l l' Hi) as H. rewrite E in H. by apply Permutation_app_inv_l in H. Qed.
Lemma omap_gain {A B} (f : A -> option B) (ls : list A) i l l' h : ls !! i = Some l -> f l = None -> f l' = Some h -> omap f (<[i := l']> ls) ≡ₚ h :: omap f ls.
Proof. intros Hi E1 E2. pose proof (omap_upd f ls i l l' Hi) as H. by rewrite E1, E2 in H. Qed.
Lemma omap_lose {A B} (f : A -> option B) (ls : list A) i l l' h : ls !! i = Some l -> f l = Some h -> f l' = None -> h :: omap f (<[i := l']> ls) ≡ₚ omap f ls.
Proof. intros Hi E1 E2. pose proof (omap_upd f ls i l l' Hi) as H. by rewrite E1, E2 in H. Qed.
Definition actor (e : event) : nat := match e with Called i _ | Returned i _ _ | Begins i _ _ | Ends i _ => i end.
Lemma invoked_other j e h : j <> actor e -> invoked j (e :: h) = invoked j h.
Proof. destruct e as [i []|i ? ?|i ? ?|i ?]; cbn; intros; try done; by rewrite decide_False. Qed.
Lemma must_other j e h t : j <> actor e -> t ∈ must j (e :: h) -> t ∈ must j h.
Proof. destruct e as [i [|[] []| |]|i ? ?|i ? ?|i ?]; cbn; intros Hj; try done; [rewrite elem_of_list_filter; by intros []|by rewrite decide_False]. Qed.
Lemma tinv_hist s e j l : j <> actor e -> tinv s j l -> tinv (set_hist (e :: hist s) s) j l.
Proof.
  intros Hj. destruct l; cbn [tinv set_hist targets regs hist]; try done; unfold calls_ok; cbn [set_hist hist]; rewrite ?(invoked_other _ _ _ Hj); try done.
  intros (l&?&?&Hm). exists l. split_and!; auto. intros t Ht. apply Hm. by eapply must_other.
Qed.
Lemma tinv_lock s w r j l : tinv s j l -> tinv (set_lock w r s) j l.
Proof. by destruct l. Qed.
(** Who satisfies b among the local states, when one of them changes. *)
Lemma who_upd (b : pc -> bool) (ls : list pc) i l l' j : ls !! i = Some l ->
  (exists lj, <[i := l']> ls !! j = Some lj /\ b lj = true) <-> (if decide (j = i) then b l' = true else exists lj, ls !! j = Some lj /\ b lj = true).
Proof.
  intros Hi. case_decide as E.
  - subst. rewrite list_lookup_insert by (by eapply lookup_lt_Some). naive_solver.
  - rewrite list_lookup_insert_ne by done. done.
Qed.
Lemma who_same (b : pc -> bool) (ls : list pc) i l l' j : ls !! i = Some l -> b l = b l' -> (exists lj, <[i := l']> ls !! j = Some lj /\ b lj = true) <-> (exists lj, ls !! j = Some lj /\ b lj = true).
Proof. intros Hi Hb. rewrite (who_upd b ls i l l' j Hi). case_decide; [|done]. subst. rewrite Hi. naive_solver. Qed.

Lemma thr_upd (P : nat -> pc -> Prop) (ls : list pc) i l' : P i l' -> (forall j l, ls !! j = Some l -> j <> i -> P j l) -> forall j l, <[i := l']> ls !! j = Some l -> P j l.
Proof. intros H1 H2 j l [[-> ->]|[? ?]]%upd_some; auto. Qed.

Definition is_D4 (l : pc) : bool := match l with D4 _ _ _ => true | _ => false end.
Lemma lock_move s ls i l l' w r :
  InvA s ls -> ls !! i = Some l -> held l = held l' -> loose l = loose l' -> closes l' = false -> l <> Out -> is_D4 l = false -> tinv s i l' ->
  (forall j, w = Some j <-> if decide (j = i) then holdsX l' = true else writer s = Some j) ->
  (forall j, j ∈ r <-> if decide (j = i) then holdsS l' = true else j ∈ readers s) -> (w <> None -> r = []) ->
  InvA (set_lock w r s) (<[i := l']> ls).
Proof.
  intros [] Hi Hh Hl Hc Ho Hd Ht Hw Hr Hwr. split; cbn [set_lock dead writer readers targets nodes fresh hist regs]; auto.
  - intros j. rewrite Hw, (who_upd holdsX ls i l l' j Hi). case_decide; [done|]. apply a_writer0.
  - intros j. rewrite Hr, (who_upd holdsS ls i l l' j Hi). case_decide; [done|]. apply a_readers0.
  - by rewrite (omap_upd0 held ls i l l' Hi Hh).
  - by rewrite (omap_upd0 loose ls i l l' Hi Hl).
  - apply thr_upd; [split; [by apply tinv_lock|done]|]. intros j lj Hj Hne. destruct (a_thr0 _ _ Hj). split; [by apply tinv_lock|done].
  - intros j h Hp. destruct (a_prog0 _ _ Hp) as (a&k&t&Hj&Hth). exists a, k, t. split; [|done]. rewrite list_lookup_insert_ne; [done|]. intros <-. rewrite Hi in Hj. injection Hj as ->. done.
  - apply (thr_upd (fun j lj => lj <> Out -> j ∈ running (hist s))); [intros _; by eapply a_run0|]. intros j lj Hj _. by apply a_run0.
Qed.
Lemma same_lock s ls i l l' : InvA s ls -> ls !! i = Some l -> holdsX l = holdsX l' -> holdsS l = holdsS l' ->
  (forall j, writer s = Some j <-> if decide (j = i) then holdsX l' = true else writer s = Some j) /\ (forall j, j ∈ readers s <-> if decide (j = i) then holdsS l' = true else j ∈ readers s).
Proof.
  intros HI Hi Hx Hs. split; intros j; case_decide as E; try done; subst j.
  - rewrite (a_writer _ _ HI). rewrite <-Hx, Hi. naive_solver.
  - rewrite (a_readers _ _ HI). rewrite <-Hs, Hi. naive_solver.
Qed.
Lemma set_lock_id s : set_lock (writer s) (readers s) s = s.
Proof. by destruct s. Qed.
Lemma stay_move s ls i l l' : InvA s ls -> ls !! i = Some l -> held l = held l' -> loose l = loose l' -> closes l' = false -> l <> Out -> is_D4 l = false -> tinv s i l' ->
  holdsX l = holdsX l' -> holdsS l = holdsS l' -> InvA s (<[i := l']> ls).
Proof.
  intros HI Hi Hh Hl Hc Ho Hd Ht Hx Hs. rewrite <-(set_lock_id s) at 1. destruct (same_lock _ _ _ _ _ HI Hi Hx Hs). eapply lock_move; eauto. apply HI.
Qed.
Lemma hist_move s ls i l l' e :
  InvA s ls -> ls !! i = Some l -> actor e = i -> loose l = loose l' -> holdsX l = holdsX l' -> holdsS l = holdsS l' -> closes l' = false ->
  handles (e :: hist s) ++ omap held (<[i := l']> ls) ≡ₚ handles (hist s) ++ omap held ls ->
  tinv (set_hist (e :: hist s) s) i l' ->
  (forall h, h ∈ unregistered (e :: hist s) -> h ∈ unregistered (hist s) \/ (h ∈ th <$> regs s /\ h ∉ th <$> targets s)) ->
  (forall j h, (j, h) ∈ in_progress (e :: hist s) -> exists a k t, <[i := l']> ls !! j = Some (D4 a k t) /\ th t = h) ->
  (forall j, j <> i -> j ∈ running (hist s) -> j ∈ running (e :: hist s)) -> (l' <> Out -> i ∈ running (e :: hist s)) ->
  event_ok (regs s) e (hist s) ->
  InvA (set_hist (e :: hist s) s) (<[i := l']> ls).
Proof.
  intros [] Hi He Hl Hx Hs Hc Hh Ht Hu Hp Hr Hr' Hev. split; cbn [set_hist dead writer readers targets nodes fresh hist regs]; auto.
  - intros j. rewrite (who_same holdsX ls i l l' j Hi Hx). apply a_writer0.
  - intros j. rewrite (who_same holdsS ls i l l' j Hi Hs). apply a_readers0.
  - by rewrite Hh.
  - by rewrite (omap_upd0 loose ls i l l' Hi Hl).
  - apply thr_upd; [done|]. intros j lj Hj Hne. destruct (a_thr0 _ _ Hj). split; [|done]. apply tinv_hist; [by rewrite He|done].
  - intros h Hh'. destruct (Hu _ Hh'); auto.
  - apply (thr_upd (fun j lj => lj <> Out -> j ∈ running (e :: hist s))); [done|]. intros j lj Hj Hne Ho. apply Hr; [done|]. by eapply a_run0.
  - by split.
Qed.

Lemma inv_A s ls i l : Inv s ls -> ls !! i = Some l -> l <> Out -> closes l = false -> InvA s ls /\ given_up (hist s) = false.
Proof.
  unfold Inv. destruct (given_up (hist s)); [|done]. intros [_ _ _ (j&lj&Hj&Ho&Hm)] Hi Hl Hc. exfalso. destruct (decide (i = j)) as [->|Hne]; [|by apply Hl, (Ho i l)].
  rewrite Hj in Hi. injection Hi as ->. by destruct l.
Qed.
Lemma inv_back s ls : given_up (hist s) = false -> InvA s ls -> Inv s ls.
Proof. unfold Inv. by intros ->. Qed.

Lemma nodes_nodup s ls : InvA s ls -> NoDup ((th <$> targets s) ++ omap loose ls).
Proof. intros HI. rewrite <-(a_nodes _ _ HI). apply NoDup_elements. Qed.
Lemma held_in s ls i l h : InvA s ls -> ls !! i = Some l -> held l = Some h -> h ∈ th <$> targets s.
Proof. intros HI Hi Hh. rewrite (a_held _ _ HI), elem_of_app. right. apply elem_of_list_omap. exists l. split; [|done]. by eapply elem_of_list_lookup_2. Qed.
Lemma loose_in s ls i l h : InvA s ls -> ls !! i = Some l -> loose l = Some h -> h ∈ nodes s /\ h ∉ th <$> targets s.
Proof.
  intros HI Hi Hh. assert (h ∈ omap loose ls) as Hin. { apply elem_of_list_omap. exists l. split; [|done]. by eapply elem_of_list_lookup_2. }
  split.
  - apply elem_of_elements. rewrite (a_nodes _ _ HI), elem_of_app. auto.
  - pose proof (nodes_nodup _ _ HI) as (_&Hd&_)%NoDup_app. intros Ht. by apply (Hd h).
Qed.

Lemma sublist_in {A} (l k : list A) x : l `sublist_of` k -> x ∈ l -> x ∈ k.
Proof. intros H Hx. eapply elem_of_submseteq; [exact Hx|]. by apply sublist_submseteq. Qed.
Lemma sublist_nodup {A} (l k : list A) : l `sublist_of` k -> NoDup k -> NoDup l.
Proof.
  induction 1 as [|x l k Hs IH|x l k Hs IH]; intros Hn; [done| |].
  - apply NoDup_cons in Hn as [Hx Hn]. apply NoDup_cons. split; [|auto]. intros Hin. apply Hx. by eapply sublist_in.
  - apply NoDup_cons in Hn as [Hx Hn]. auto.
Qed.
Lemma regs_of s ls h : InvA s ls -> h ∈ th <$> targets s -> h ∈ th <$> regs s.
Proof. intros HI. apply sublist_in. apply fmap_sublist. apply HI. Qed.
Lemma targets_nodup s ls : InvA s ls -> NoDup (th <$> targets s).
Proof. intros HI. eapply sublist_nodup; [apply fmap_sublist, HI|apply HI]. Qed.
Lemma filter_th (l : list target) h h' : h' ∈ th <$> filter (fun t => th t ≠ h) l <-> h' ∈ th <$> l /\ h' <> h.
Proof.
  rewrite !elem_of_list_fmap. split.
  - intros (t&->&[Hne Ht]%elem_of_list_filter). eauto.
  - intros [(t&->&Ht) Hne]. exists t. split; [done|]. by apply elem_of_list_filter.
Qed.
Lemma filter_none (l : list target) h : h ∉ th <$> l -> filter (fun t => th t ≠ h) l = l.
Proof.
  induction l as [|t l IH]; [done|]. rewrite fmap_cons, not_elem_of_cons. intros [Hne Hl]. rewrite filter_cons, decide_True by done. by rewrite IH.
Qed.
Lemma remove_th (l : list target) h : NoDup (th <$> l) -> h ∈ th <$> l -> th <$> l ≡ₚ h :: (th <$> filter (fun t => th t ≠ h) l).
Proof.
  induction l as [|t l IH]; [by intros _ ?%elem_of_nil|]. rewrite fmap_cons. intros [Hn Hd]%NoDup_cons Hh. rewrite filter_cons. destruct (decide (th t = h)) as [E|E].
  - rewrite decide_False by naive_solver. subst h. by rewrite filter_none.
  - rewrite decide_True by done. apply elem_of_cons in Hh as [|Hh]; [done|]. rewrite fmap_cons, (IH Hd Hh). apply Permutation_swap.
Qed.
Lemma filter_perm (l : list nat) h : NoDup l -> h ∈ l -> l ≡ₚ h :: filter (.≠ h) l.
Proof.
  induction l as [|t l IH]; [by intros _ ?%elem_of_nil|]. intros [Hn Hd]%NoDup_cons Hh. rewrite filter_cons. destruct (decide (t = h)) as [E|E].
  - rewrite decide_False by naive_solver. subst h. f_equiv. clear -Hn. induction l as [|x l IH]; [done|]. apply not_elem_of_cons in Hn as [? ?]. rewrite filter_cons, decide_True by done. f_equiv. auto.
  - rewrite decide_True by done. apply elem_of_cons in Hh as [|Hh]; [done|]. rewrite (IH Hd Hh) at 1. apply Permutation_swap.
Qed.
Lemma elements_remove (X : gset nat) h : h ∈ X -> elements X ≡ₚ h :: elements (X ∖ {[h]}).
Proof. intros Hh. rewrite (union_difference_singleton_L h X) at 1 by done. apply elements_union_singleton. set_solver. Qed.

(** Taking and giving back the lock. *)
Lemma lock_x s ls i l l' : InvA s ls -> ls !! i = Some l -> writer s = None -> readers s = [] -> held l = held l' -> loose l = loose l' -> closes l' = false -> l <> Out -> is_D4 l = false -> tinv s i l' ->
  holdsX l' = true -> holdsS l' = false -> InvA (set_lock (Some i) [] s) (<[i := l']> ls).
Proof.
  intros HI Hi Hw Hr Hh Hl Hc Ho Hd Ht Hx Hs. eapply lock_move; eauto.
  - intros j. rewrite Hw. destruct (decide (j = i)) as [->|?]; split; intros; simplify_eq; congruence.
  - intros j. rewrite Hr. case_decide; [|done]. rewrite Hs. split; [by intros ?%elem_of_nil|done].
Qed.
Lemma unlock_x s ls i l l' : InvA s ls -> ls !! i = Some l -> held l = held l' -> loose l = loose l' -> closes l' = false -> tinv s i l' ->
  holdsX l = true -> holdsX l' = false -> holdsS l' = false -> writer s = Some i /\ InvA (set_lock None (readers s) s) (<[i := l']> ls).
Proof.
  intros HI Hi Hh Hl Hc Ht Hx Hx' Hs. assert (writer s = Some i) as Hw by (apply (a_writer _ _ HI); eauto). assert (readers s = []) as Hr by (apply (a_lock _ _ HI); by rewrite Hw).
  split; [done|]. eapply lock_move; eauto.
  - by intros ->.
  - destruct l; naive_solver.
  - intros j. rewrite Hw. destruct (decide (j = i)) as [->|?]; split; intros; simplify_eq; congruence.
  - intros j. rewrite Hr. case_decide; [|done]. rewrite Hs. split; [by intros ?%elem_of_nil|done].
Qed.
Lemma lock_s s ls i l l' : InvA s ls -> ls !! i = Some l -> writer s = None -> held l = held l' -> loose l = loose l' -> closes l' = false -> l <> Out -> is_D4 l = false -> tinv s i l' ->
  holdsX l' = false -> holdsS l' = true -> InvA (set_lock None (i :: readers s) s) (<[i := l']> ls).
Proof.
  intros HI Hi Hw Hh Hl Hc Ho Hd Ht Hx Hs. eapply lock_move; eauto.
  - intros j. rewrite Hw. destruct (decide (j = i)) as [->|?]; split; intros; simplify_eq; congruence.
  - intros j. rewrite elem_of_cons. destruct (decide (j = i)) as [->|?]; [split; auto|]. split; [by intros [?|?]|auto].
  - done.
Qed.
Lemma unlock_s s ls i l l' : InvA s ls -> ls !! i = Some l -> held l = held l' -> loose l = loose l' -> closes l' = false -> is_D4 l = false -> tinv s i l' ->
  holdsS l = true -> holdsX l' = false -> holdsS l' = false -> i ∈ readers s /\ InvA (set_lock (writer s) (filter (.≠ i) (readers s)) s) (<[i := l']> ls).
Proof.
  intros HI Hi Hh Hl Hc Hd Ht Hx Hx' Hs. assert (i ∈ readers s) as Hr by (apply (a_readers _ _ HI); eauto).
  assert (writer s = None) as Hw. { destruct (writer s) eqn:E; [|done]. rewrite (a_lock _ _ HI) in Hr by (by rewrite E). by apply elem_of_nil in Hr. }
  split; [done|]. eapply lock_move; eauto.
  - by intros ->.
  - intros j. rewrite Hw. destruct (decide (j = i)) as [->|?]; split; intros; simplify_eq; congruence.
  - intros j. rewrite elem_of_list_filter. destruct (decide (j = i)) as [->|?]; (split; [by intros []|]); [congruence|auto].
  - by rewrite Hw.
Qed.
Lemma may_write_x s ls i l : InvA s ls -> ls !! i = Some l -> holdsX l = true -> may_write i s = true.
Proof. intros HI Hi Hx. unfold may_write. rewrite bool_decide_true; [done|]. apply (a_writer _ _ HI). eauto. Qed.
Lemma may_read_s s ls i l : InvA s ls -> ls !! i = Some l -> holdsS l = true -> may_read i s = true.
Proof. intros HI Hi Hx. unfold may_read. rewrite (bool_decide_true (i ∈ readers s)); [by destruct (may_write i s)|]. apply (a_readers _ _ HI). eauto. Qed.
(** While a thread holds the lock exclusively no other is inside a dispatch. *)
Lemma no_reader s ls i l j lj : InvA s ls -> ls !! i = Some l -> holdsX l = true -> ls !! j = Some lj -> holdsS lj = false.
Proof.
  intros HI Hi Hx Hj. destruct (holdsS lj) eqn:E; [|done]. assert (writer s = Some i) as Hw by (apply (a_writer _ _ HI); eauto).
  assert (j ∈ readers s) as Hr by (apply (a_readers _ _ HI); eauto). rewrite (a_lock _ _ HI) in Hr by (by rewrite Hw). by apply elem_of_nil in Hr.
Qed.

Lemma malloc_move s ls i f x : InvA s ls -> ls !! i = Some (R0 f x) ->
  InvA (Disp (writer s) (readers s) (dead s) (targets s) ({[fresh s]} ∪ nodes s) (S (fresh s)) (hist s) (regs s)) (<[i := R1 (fresh s) f x]> ls).
Proof.
  intros HI Hi. pose proof HI as []. assert (fresh s ∉ nodes s) as Hn. { intros Hin. assert (fresh s < fresh s)%nat; [apply a_fresh0; auto|lia]. }
  split; cbn [dead writer readers targets nodes fresh hist regs]; auto.
  - intros j. rewrite (who_same holdsX ls i _ (R1 (fresh s) f x) j Hi eq_refl). apply a_writer0.
  - intros j. rewrite (who_same holdsS ls i _ (R1 (fresh s) f x) j Hi eq_refl). apply a_readers0.
  - by rewrite (omap_upd0 held ls i _ (R1 (fresh s) f x) Hi eq_refl).
  - rewrite elements_union_singleton by done. rewrite a_nodes0. pose proof (omap_gain loose ls i _ (R1 (fresh s) f x) (fresh s) Hi eq_refl eq_refl) as Ho. rewrite Ho. by rewrite Permutation_middle.
  - intros h [[->%elem_of_singleton|Hh]%elem_of_union|Hh]; [lia|..]; (assert (h < fresh s)%nat; [apply a_fresh0; auto|lia]).
  - apply thr_upd; [split; [|done]|].
    + cbn. intros Hin. assert (fresh s < fresh s)%nat; [apply a_fresh0; auto|lia].
    + intros j lj Hj _. destruct (a_thr0 _ _ Hj). split; [|done]. by destruct lj.
  - intros j h Hp. destruct (a_prog0 _ _ Hp) as (a&k&t&Hj&Hth). exists a, k, t. split; [|done]. rewrite list_lookup_insert_ne; [done|]. intros <-. by rewrite Hi in Hj.
  - apply (thr_upd (fun j lj => lj <> Out -> j ∈ running (hist s))); [intros _; by eapply a_run0|]. intros j lj Hj _. by apply a_run0.
Qed.
Lemma insert_move s ls i h f x : InvA s ls -> ls !! i = Some (R2 h f x) ->
  InvA (Disp (writer s) (readers s) (dead s) (targets s ++ [Target h f x]) (nodes s) (fresh s) (hist s) (regs s ++ [Target h f x])) (<[i := R3 h f x]> ls).
Proof.
  intros HI Hi. pose proof HI as []. destruct (a_thr0 _ _ Hi) as [Hnr _]. cbn in Hnr. destruct (loose_in _ _ _ _ h HI Hi eq_refl) as [Hn Hnt].
  assert (forall j lj h', ls !! j = Some lj -> j <> i -> loose lj = Some h' -> h' <> h) as Hlo.
  { intros j lj h' Hj Hne Hl ->. pose proof (nodes_nodup _ _ HI) as (_&_&Hnd)%NoDup_app. pose proof (omap_lose loose ls i _ Out h Hi eq_refl eq_refl) as Ho. rewrite <-Ho in Hnd.
    apply NoDup_cons in Hnd as [Hni _]. apply Hni. apply elem_of_list_omap. exists lj. split; [|done]. eapply elem_of_list_lookup_2. by rewrite list_lookup_insert_ne. }
  split; cbn [dead writer readers targets nodes fresh hist regs]; auto.
  - intros j. rewrite (who_same holdsX ls i _ (R3 h f x) j Hi eq_refl). apply a_writer0.
  - intros j. rewrite (who_same holdsS ls i _ (R3 h f x) j Hi eq_refl). apply a_readers0.
  - rewrite fmap_app. cbn. rewrite a_held0. pose proof (omap_gain held ls i _ (R3 h f x) h Hi eq_refl eq_refl) as Ho. rewrite Ho. solve_Permutation.
  - rewrite fmap_app. cbn. rewrite a_nodes0. pose proof (omap_lose loose ls i _ (R3 h f x) h Hi eq_refl eq_refl) as Ho. rewrite <-Ho. solve_Permutation.
  - intros h'. rewrite fmap_app, elem_of_app. cbn. rewrite elem_of_list_singleton. intros [?|[?| ->]]; auto.
  - by apply sublist_app.
  - rewrite fmap_app. cbn. apply NoDup_app. split_and!; [done| |apply NoDup_singleton]. intros h' Hh ->%elem_of_list_singleton. done.
  - apply thr_upd; [split; [|done]; cbn; apply elem_of_app; right; by left|]. intros j lj Hj Hne. destruct (a_thr0 _ _ Hj) as [Ht Hc]. split; [|done].
    pose proof (no_reader _ _ _ _ _ _ HI Hi eq_refl Hj) as Hs. 
    destruct lj as [| | |h' ? ?|h' ? ?|h' ? ?|h' ? ?|h'|h'|h'|h'|h'| | | | | | | | | | |]; try done; cbn in *; rewrite ?fmap_app, ?not_elem_of_app, ?elem_of_app; cbn; rewrite ?not_elem_of_cons, ?elem_of_list_singleton; auto.
    + split; [done|]. split; [|apply not_elem_of_nil]. by eapply Hlo.
    + split; [done|]. split; [|apply not_elem_of_nil]. by eapply Hlo.
    + destruct Ht as [H1 H2]. split; [auto|]. split; [done|]. split; [|apply not_elem_of_nil]. intros ->. done.
    + destruct Ht as [H1 H2]. split; [auto|]. split; [done|]. split; [|apply not_elem_of_nil]. intros ->. done.
    + destruct Ht as [H1 H2]. split; [auto|]. split; [done|]. split; [|apply not_elem_of_nil]. intros ->. done.
    + destruct Ht as (l&?&?&?). exists l. split_and!; auto. by apply sublist_inserts_r.
  - intros h' Hh. destruct (a_gone0 _ Hh) as [H1 H2]. rewrite !fmap_app, !elem_of_app. cbn. rewrite elem_of_list_singleton. split; [auto|]. intros [?| ->]; done.
  - intros j h' Hp. destruct (a_prog0 _ _ Hp) as (a&k&t&Hj&Hth). exists a, k, t. split; [|done]. rewrite list_lookup_insert_ne; [done|]. intros <-. by rewrite Hi in Hj.
  - apply (thr_upd (fun j lj => lj <> Out -> j ∈ running (hist s))); [intros _; by eapply a_run0|]. intros j lj Hj _. by apply a_run0.
  - eapply all_ok_mono; [|done]. by apply prefix_app_r.
Qed.
Lemma remove_move s ls i h : InvA s ls -> ls !! i = Some (U2 h) ->
  h ∈ th <$> targets s /\ InvA (Disp (writer s) (readers s) (dead s) (filter (fun t => th t ≠ h) (targets s)) (nodes s) (fresh s) (hist s) (regs s)) (<[i := U3 h]> ls).
Proof.
  intros HI Hi. pose proof (held_in _ _ _ _ h HI Hi eq_refl) as Hh. split; [done|]. pose proof HI as []. pose proof (remove_th _ _ (targets_nodup _ _ HI) Hh) as Hp.
  split; cbn [dead writer readers targets nodes fresh hist regs]; auto.
  - intros j. rewrite (who_same holdsX ls i _ (U3 h) j Hi eq_refl). apply a_writer0.
  - intros j. rewrite (who_same holdsS ls i _ (U3 h) j Hi eq_refl). apply a_readers0.
  - pose proof (omap_lose held ls i _ (U3 h) h Hi eq_refl eq_refl) as Ho. rewrite Hp, <-Ho in a_held0. rewrite <-Permutation_middle in a_held0. by apply Permutation_cons_inv in a_held0.
  - pose proof (omap_gain loose ls i _ (U3 h) h Hi eq_refl eq_refl) as Ho. rewrite a_nodes0, Hp, Ho. solve_Permutation.
  - etrans; [|done]. clear. induction (targets s) as [|t l IH]; [done|]. rewrite filter_cons. case_decide; [by apply sublist_skip|by apply sublist_cons].
  - apply thr_upd; [split; [|done]; cbn; split; [by eapply regs_of|]; rewrite filter_th; naive_solver|]. intros j lj Hj Hne. destruct (a_thr0 _ _ Hj) as [Ht Hc]. split; [|done].
    pose proof (no_reader _ _ _ _ _ _ HI Hi eq_refl Hj) as Hs. destruct lj; try done; cbn in *; rewrite filter_th; naive_solver.
  - intros h' Hh'. destruct (a_gone0 _ Hh') as [H1 H2]. split; [done|]. rewrite filter_th. naive_solver.
  - intros j h' Hpr. destruct (a_prog0 _ _ Hpr) as (a&k&t&Hj&Hth). exists a, k, t. split; [|done]. rewrite list_lookup_insert_ne; [done|]. intros <-. by rewrite Hi in Hj.
  - apply (thr_upd (fun j lj => lj <> Out -> j ∈ running (hist s))); [intros _; by eapply a_run0|]. intros j lj Hj _. by apply a_run0.
Qed.
Lemma free_move s ls i h : InvA s ls -> ls !! i = Some (U4 h) ->
  h ∈ nodes s /\ InvA (Disp (writer s) (readers s) (dead s) (targets s) (nodes s ∖ {[h]}) (fresh s) (hist s) (regs s)) (<[i := U5 h]> ls).
Proof.
  intros HI Hi. destruct (loose_in _ _ _ _ h HI Hi eq_refl) as [Hh Hnt]. split; [done|]. pose proof HI as [].
  split; cbn [dead writer readers targets nodes fresh hist regs]; auto.
  - intros j. rewrite (who_same holdsX ls i _ (U5 h) j Hi eq_refl). apply a_writer0.
  - intros j. rewrite (who_same holdsS ls i _ (U5 h) j Hi eq_refl). apply a_readers0.
  - by rewrite (omap_upd0 held ls i _ (U5 h) Hi eq_refl).
  - pose proof (omap_lose loose ls i _ (U5 h) h Hi eq_refl eq_refl) as Ho. rewrite (elements_remove _ _ Hh), <-Ho, <-Permutation_middle in a_nodes0. by apply Permutation_cons_inv in a_nodes0.
  - set_solver.
  - apply thr_upd; [split; [|done]; by destruct (a_thr0 _ _ Hi)|]. intros j lj Hj Hne. destruct (a_thr0 _ _ Hj) as [Ht Hc]. split; [|done]. by destruct lj.
  - intros j h' Hpr. destruct (a_prog0 _ _ Hpr) as (a&k&t&Hj&Hth). exists a, k, t. split; [|done]. rewrite list_lookup_insert_ne; [done|]. intros <-. by rewrite Hi in Hj.
  - apply (thr_upd (fun j lj => lj <> Out -> j ∈ running (hist s))); [intros _; by eapply a_run0|]. intros j lj Hj _. by apply a_run0.
Qed.

Lemma prog_other s ls i l l' : InvA s ls -> ls !! i = Some l -> is_D4 l = false -> forall j h, (j, h) ∈ in_progress (hist s) -> exists a k t, <[i := l']> ls !! j = Some (D4 a k t) /\ th t = h.
Proof.
  intros HI Hi Hd j h Hp. destruct (a_prog _ _ HI _ _ Hp) as (a&k&t&Hj&Hth). exists a, k, t. split; [|done]. rewrite list_lookup_insert_ne; [done|]. intros <-. rewrite Hi in Hj. injection Hj as ->. done.
Qed.
(** A call answers. *)
Lemma ret_ok i o r l : l <> Out -> closes l = false -> loose l = None -> holdsX l = false -> holdsS l = false -> is_D4 l = false -> shape o (Ret r) l ->
  (forall s ls, InvA s ls -> ls !! i = Some l ->
    handles (Returned i o r :: hist s) ++ omap held (<[i := Out]> ls) ≡ₚ handles (hist s) ++ omap held ls /\
    (forall h, h ∈ unregistered (Returned i o r :: hist s) -> h ∈ unregistered (hist s) \/ (h ∈ th <$> regs s /\ h ∉ th <$> targets s)) /\
    event_ok (regs s) (Returned i o r) (hist s)) ->
  runs i o (Ret r) l.
Proof.
  intros Ho Hc Hl Hx Hs Hd Hsh H. apply wpa_ret; [done|]. intros s ls Hi HI. destruct (inv_A _ _ _ _ HI Hi Ho Hc) as [HA Hg]. exists Out. split; [done|]. apply inv_back; [done|].
  destruct (H _ _ HA Hi) as (H1&H2&H3). apply (hist_move s ls i l Out (Returned i o r)); try done.
  - by apply (prog_other _ _ _ _ _ HA Hi).
  - intros j Hj Hr. cbn. by apply elem_of_list_filter.
Qed.
Lemma handles_nodup s ls : InvA s ls -> NoDup (handles (hist s) ++ omap held ls).
Proof. intros HI. rewrite <-(a_held _ _ HI). by eapply targets_nodup. Qed.
Lemma held_not s ls i l h : InvA s ls -> ls !! i = Some l -> held l = Some h -> h ∉ handles (hist s).
Proof.
  intros HI Hi Hh. pose proof (handles_nodup _ _ HI) as (_&Hd&_)%NoDup_app. intros Hin. apply (Hd _ Hin). apply elem_of_list_omap. exists l. split; [|done]. by eapply elem_of_list_lookup_2.
Qed.
(** Errors. *)
Definition refused (o : op) (r : res) : Prop :=
  match o with
  | Register d f c mem => d && negb (f =? 0) && mem = false /\ r = Handle None
  | Unregister d t => match d, t with true, Some _ => False | _, _ => r = Int 1 end
  | Dispatch d _ => d = false /\ r = Int 1
  | Free => False
  end.
Lemma refused_ok i o r : refused o r -> runs i o (Ret r) (Back o).
Proof.
  intros Hr. apply ret_ok; try done. intros s ls HI Hi. assert (omap held (<[i := Out]> ls) ≡ₚ omap held ls) as E by (by apply (omap_upd0 held ls i _ Out Hi)).
  destruct o as [d f c mem|[] [t|]|d a|]; cbn in Hr; try done.
  - destruct Hr as [Hd ->]. cbn [handles unregistered event_ok]. rewrite Hd, E. auto.
  - subst r. cbn. rewrite E. auto.
  - subst r. cbn. rewrite E. auto.
  - subst r. cbn. rewrite E. auto.
  - destruct Hr as [-> ->]. cbn. rewrite E. auto.
Qed.

Ltac known HI Hi := let HA := fresh "HA" in let Hg := fresh "Hg" in edestruct (inv_A _ _ _ _ HI Hi) as [HA Hg]; [discriminate|reflexivity|].
Lemma register_ok i f x : f <> 0 -> runs i (Register true f x true) (REGISTER_TARGET i true f x true) (R0 f x).
Proof.
  intros Hf. unfold REGISTER_TARGET. cbn [negb orb]. destruct (Z.eqb_spec f 0) as [|Hf']; [done|]. apply wpa_act; [shp|]. intros s ls Hi HI. known HI Hi. cbn.
  exists (R1 (fresh s) f x). split; [apply inv_back; [done|]; by apply malloc_move|]. generalize (fresh s) as h. clear s ls Hi HI HA Hg. intros h.
  apply wpa_act; [shp|]. intros s ls Hi HI. known HI Hi. unfold acquire_exclusive. rewrite (a_alive _ _ HA). destruct (a_thr _ _ HA _ _ Hi) as [Ht _]. cbn in Ht.
  destruct (writer s) as [w|] eqn:Ew; [by split_and!; auto; left; rewrite Ew|]. destruct (readers s) as [|rd rds] eqn:Er; [|by split_and!; auto; right; rewrite Er].
  exists (R2 h f x). split; [apply inv_back; [done|]; by eapply lock_x|]. clear s ls Hi HI HA Hg Ht Ew Er.
  apply wpa_act; [shp|]. intros s ls Hi HI. known HI Hi. unfold insert_tail. rewrite (may_write_x _ _ _ _ HA Hi eq_refl). cbn [andb]. destruct (loose_in _ _ _ _ h HA Hi eq_refl) as [Hn _].
  cbn [th]. rewrite bool_decide_true by done. exists (R3 h f x). split; [apply inv_back; [done|]; by apply insert_move|]. clear s ls Hi HI HA Hg Hn.
  apply wpa_act; [shp|]. intros s ls Hi HI. known HI Hi. destruct (a_thr _ _ HA _ _ Hi) as [Ht _]. destruct (unlock_x _ _ _ _ (R4 h f x) HA Hi eq_refl eq_refl eq_refl Ht eq_refl eq_refl eq_refl) as [Hw HA'].
  unfold release_exclusive. rewrite decide_True by done. exists (R4 h f x). split; [by apply inv_back|]. clear s ls Hi HI HA Hg Ht Hw HA'.
  apply ret_ok; try done. intros s ls HI Hi. split_and!.
  - cbn [handles]. pose proof (omap_lose held ls i _ Out h Hi eq_refl eq_refl) as Ho. rewrite <-Ho. solve_Permutation.
  - intros h' Hh'. by left.
  - cbn [event_ok]. destruct (Z.eqb_spec f 0) as [|_]; [done|]. cbn. exists h. split; [done|]. destruct (a_thr _ _ HI _ _ Hi) as [Ht _]. split; [done|]. by eapply held_not.
Qed.
Lemma unregister_ok i h : runs i (Unregister true (Some h)) (UNREGISTER_TARGET i true (Some h)) (U1 h).
Proof.
  apply wpa_act; [shp|]. intros s ls Hi HI. known HI Hi. unfold acquire_exclusive. rewrite (a_alive _ _ HA).
  destruct (writer s) as [w|] eqn:Ew; [by split_and!; auto; left; rewrite Ew|]. destruct (readers s) as [|rd rds] eqn:Er; [|by split_and!; auto; right; rewrite Er].
  exists (U2 h). split; [apply inv_back; [done|]; by eapply lock_x|]. clear s ls Hi HI HA Hg Ew Er.
  apply wpa_act; [shp|]. intros s ls Hi HI. known HI Hi. unfold remove_entry. rewrite (may_write_x _ _ _ _ HA Hi eq_refl). cbn [andb]. destruct (remove_move _ _ _ _ HA Hi) as [Hh HA'].
  rewrite bool_decide_true by done. exists (U3 h). split; [by apply inv_back|]. clear s ls Hi HI HA Hg Hh HA'.
  apply wpa_act; [shp|]. intros s ls Hi HI. known HI Hi. destruct (a_thr _ _ HA _ _ Hi) as [Ht _]. destruct (unlock_x _ _ _ _ (U4 h) HA Hi eq_refl eq_refl eq_refl Ht eq_refl eq_refl eq_refl) as [Hw HA'].
  unfold release_exclusive. rewrite decide_True by done. exists (U4 h). split; [by apply inv_back|]. clear s ls Hi HI HA Hg Ht Hw HA'.
  apply wpa_act; [shp|]. intros s ls Hi HI. known HI Hi. destruct (free_move _ _ _ _ HA Hi) as [Hh HA']. unfold free_target. rewrite decide_True by done. exists (U5 h). split; [by apply inv_back|]. clear s ls Hi HI HA Hg Hh HA'.
  apply ret_ok; try done. intros s ls HI Hi. destruct (a_thr _ _ HI _ _ Hi) as [[Ht1 Ht2] _]. split_and!.
  - cbn [handles]. by rewrite (omap_upd0 held ls i _ Out Hi eq_refl).
  - cbn [unregistered]. intros h' [->|Hh']%elem_of_cons; auto.
  - cbn [event_ok]. split; [done|]. intros j Hp. destruct (a_prog _ _ HI _ _ Hp) as (a&k&t&Hj&<-). destruct (a_thr _ _ HI _ _ Hj) as [[_ [u Hu]] _]. apply Ht2. rewrite Hu, !fmap_app. apply elem_of_app. left. apply elem_of_app. right. by left.
Qed.
Lemma link_after_app (l : list target) t u : NoDup (th <$> l ++ t :: u) -> link_after (th t) (l ++ t :: u) = Some (head u).
Proof.
  induction l as [|x l IH]; cbn [app link_after]; intros Hn.
  - by rewrite decide_True.
  - rewrite fmap_cons in Hn. apply NoDup_cons in Hn as [Hx Hn]. rewrite decide_False; [by apply IH|]. intros E. apply Hx. rewrite E, fmap_app. apply elem_of_app. right. by left.
Qed.
Lemma loop_ok i a l cur : runs i (Dispatch true a) (dispatch_loop i a cur) (D3 a l cur).
Proof.
  eapply wp_loop with (A := fun p l => exists k cur, p = dispatch_loop i a cur /\ l = D3 a k cur); [|apply wpa_again; by eauto]. clear l cur.
  intros p l (k&cur&->&->). rewrite (frob_eq (dispatch_loop i a cur)). destruct cur as [t|]; cbn [frob dispatch_loop].
  - split; [shp|]. intros s ls Hi HI. known HI Hi. destruct (a_thr _ _ HA _ _ Hi) as [[Hc (rest&Hr&Hcur)] _]. destruct rest as [|t' rest]; [done|]. injection Hcur as <-.
    assert (th t ∈ th <$> targets s) as Hin by (rewrite Hr, fmap_app; apply elem_of_app; right; by left).
    exists (D4 a k t). split.
    { apply inv_back; [done|]. apply (hist_move s ls i (D3 a k (Some t)) (D4 a k t) (Begins i t a)); try done.
      - cbn [handles]. by rewrite (omap_upd0 held ls i _ (D4 a k t) Hi eq_refl).
      - split; [|exists rest; cbn; by rewrite <-app_assoc]. unfold calls_ok in *. cbn. rewrite decide_True by done. rewrite Hc, fmap_app. done.
      - intros h Hh. by left.
      - cbn. intros j h [[= -> ->]|Hp]%elem_of_cons.
        + exists a, k, t. split; [|done]. apply list_lookup_insert. by eapply lookup_lt_Some.
        + by eapply prog_other.
      - intros _. cbn. by eapply (a_run _ _ HA).
      - cbn. intros Hg'. destruct (a_gone _ _ HA _ Hg') as [_ Hn]. done. }
    clear s ls Hi HI HA Hg Hc rest Hr Hin. apply wpa_act; [shp|]. intros s ls Hi HI. known HI Hi. destruct (a_thr _ _ HA _ _ Hi) as [Ht _].
    exists (D5 a k t). split.
    { apply inv_back; [done|]. apply (hist_move s ls i (D4 a k t) (D5 a k t) (Ends i (th t))); try done.
      - cbn [handles]. by rewrite (omap_upd0 held ls i _ (D5 a k t) Hi eq_refl).
      - intros h Hh. by left.
      - cbn. intros j h [Hne Hp]%elem_of_list_filter. destruct (a_prog _ _ HA _ _ Hp) as (a'&k'&t'&Hj&<-). exists a', k', t'. split; [|done]. rewrite list_lookup_insert_ne; [done|]. intros <-. rewrite Hi in Hj. by simplify_eq.
      - intros _. cbn. by eapply (a_run _ _ HA). }
    clear s ls Hi HI HA Hg Ht. apply wpa_act; [shp|]. intros s ls Hi HI. known HI Hi. destruct (a_thr _ _ HA _ _ Hi) as [[Hc (rest&Hr)] _]. unfold flink. rewrite (may_read_s _ _ _ _ HA Hi eq_refl).
    rewrite <-app_assoc in Hr. cbn in Hr. rewrite Hr, link_after_app by (rewrite <-Hr; by eapply targets_nodup). exists (D3 a (k ++ [t]) (head rest)). split.
    { apply inv_back; [done|]. eapply stay_move; eauto. split; [done|]. exists rest. split; [|done]. by rewrite <-app_assoc. }
    apply wpa_again. eauto.
  - split; [shp|]. intros s ls Hi HI. known HI Hi. destruct (a_thr _ _ HA _ _ Hi) as [[Hc (rest&Hr&Hcur)] _]. destruct rest as [|t' rest]; [|done]. rewrite app_nil_r in Hr.
    assert (tinv s i (D6 a)) as Ht.
    { exists k. split; [done|]. rewrite <-Hr. split; [apply HA|]. intros t Ht. apply must_handles in Ht. rewrite (a_held _ _ HA). apply elem_of_app. by left. }
    destruct (unlock_s _ _ _ _ (D6 a) HA Hi eq_refl eq_refl eq_refl eq_refl Ht eq_refl eq_refl eq_refl) as [Hw HA']. unfold release_shared. rewrite decide_True by done.
    exists (D6 a). split; [by apply inv_back|]. clear s ls Hi HI HA Hg Hc Hr Ht Hw HA' Hcur. apply wpa_fold. right.
    assert (runs i (Dispatch true a) (Ret (Int 0)) (D6 a)) as Hret.
    { apply ret_ok; try done. intros s ls HI Hi. destruct (a_thr _ _ HI _ _ Hi) as [(l&Hc&Hsub&Hm) _]. split_and!.
      - cbn [handles]. by rewrite (omap_upd0 held ls i _ Out Hi eq_refl).
      - intros h Hh. by left.
      - cbn. unfold calls_ok in Hc. rewrite !Hc. split; [done|]. assert (((fun t => (t, a)) <$> l).*1 = l) as ->. { rewrite <-list_fmap_compose. apply list_fmap_id. }
        split_and!; [|done|exact Hm]. intros x Hx. apply elem_of_list_fmap in Hx as (t&->&_). done. }
    apply wpa_unfold in Hret as [[]|Hret]. eapply body_mono; [|exact Hret]. intros p l [W [HW1 HW2]]. exists W. split; [done|]. intros p' l' Hp'. right. by destruct (HW2 _ _ Hp') as [[]|].
Qed.
Lemma dispatch_ok i a : runs i (Dispatch true a) (DISPATCH_CALL i true a) (D1 a).
Proof.
  apply wpa_act; [shp|]. intros s ls Hi HI. known HI Hi. unfold acquire_shared. rewrite (a_alive _ _ HA).
  destruct (writer s) as [w|] eqn:Ew; [by split_and!; auto; left; rewrite Ew|]. destruct (a_thr _ _ HA _ _ Hi) as [Ht _].
  exists (D2 a). split; [apply inv_back; [done|]; by eapply lock_s|]. clear s ls Hi HI HA Hg Ew Ht.
  apply wpa_act; [shp|]. intros s ls Hi HI. known HI Hi. unfold flink. rewrite (may_read_s _ _ _ _ HA Hi eq_refl). destruct (a_thr _ _ HA _ _ Hi) as [Ht _].
  exists (D3 a [] (head (targets s))). split; [|apply loop_ok]. apply inv_back; [done|]. eapply stay_move; eauto. split; [done|]. by exists (targets s).
Qed.
(** The dispose function. *)
Lemma inv_B s ls i l : Inv s ls -> ls !! i = Some l -> closes l = true -> given_up (hist s) = true /\ all_ok (regs s) (hist s) /\ NoDup (th <$> regs s) /\ NoDup (th <$> targets s) /\
  (forall j l', ls !! j = Some l' -> j <> i -> l' = Out) /\
  match l with
  | F0 => elements (nodes s) ≡ₚ th <$> targets s /\ writer s = None /\ readers s = []
  | F1 => elements (nodes s) ≡ₚ th <$> targets s /\ dead s = true
  | F2 t => elements (nodes s) ≡ₚ th <$> targets s /\ dead s = true /\ t = head (targets s)
  | F3 t => elements (nodes s) ≡ₚ th t :: (th <$> targets s) /\ dead s = true
  | _ => elements (nodes s) = []
  end.
Proof.
  unfold Inv. destruct (given_up (hist s)).
  - intros [H1 H2 H3 (j&lj&Hj&Ho&Hm)] Hi Hc. destruct (decide (i = j)) as [->|Hne].
    + rewrite Hi in Hj. injection Hj as <-. split_and!; auto. by destruct l.
    + rewrite (Ho _ _ Hi Hne) in Hc. done.
  - intros HA Hi Hc. destruct (a_thr _ _ HA _ _ Hi) as [_ Hc']. congruence.
Qed.
Lemma back_B s ls i l l' : ls !! i = Some l -> given_up (hist s) = true -> all_ok (regs s) (hist s) -> NoDup (th <$> regs s) -> NoDup (th <$> targets s) ->
  (forall j l', ls !! j = Some l' -> j <> i -> l' = Out) ->
  match l' with
  | F0 => elements (nodes s) ≡ₚ th <$> targets s /\ writer s = None /\ readers s = []
  | F1 => elements (nodes s) ≡ₚ th <$> targets s /\ dead s = true
  | F2 t => elements (nodes s) ≡ₚ th <$> targets s /\ dead s = true /\ t = head (targets s)
  | F3 t => elements (nodes s) ≡ₚ th t :: (th <$> targets s) /\ dead s = true
  | F4 | Out => elements (nodes s) = []
  | _ => False
  end -> Inv s (<[i := l']> ls).
Proof.
  intros Hi Hg H1 H2 H3 Ho Hm. unfold Inv. rewrite Hg. split; auto. exists i, l'. split_and!; [apply list_lookup_insert; by eapply lookup_lt_Some| |done].
  intros j lj [[-> _]|[_ Hj]]%upd_some Hne; [done|]. by eapply Ho.
Qed.
Lemma may_dead i s : dead s = true -> may_write i s = true /\ may_read i s = true.
Proof. intros Hd. unfold may_read, may_write. rewrite Hd. by rewrite orb_true_r. Qed.
Lemma free_loop_ok i cur : runs i Free (free_loop i cur) (F2 cur).
Proof.
  eapply wp_loop with (A := fun p l => exists cur, p = free_loop i cur /\ l = F2 cur); [|apply wpa_again; by eauto]. clear cur.
  intros p l (cur&->&->). rewrite (frob_eq (free_loop i cur)). destruct cur as [t|]; cbn [frob free_loop].
  - split; [shp|]. intros s ls Hi HI. destruct (inv_B _ _ _ _ HI Hi eq_refl) as (Hg&H1&H2&H3&Ho&Hn&Hd&Hh). destruct (may_dead i s Hd) as [Hw _]. destruct (targets s) as [|t' ts] eqn:Et; [done|]. injection Hh as <-.
    unfold remove_entry. rewrite Hw. rewrite bool_decide_true by (rewrite Et; by left). cbn [andb]. exists (F3 t). rewrite Et. rewrite fmap_cons in H3. split.
    { apply NoDup_cons in H3 as [H3 H4]. rewrite filter_cons, decide_False by naive_solver. rewrite filter_none by done. eapply back_B; eauto. }
    clear s ls Hi HI Hg H1 H2 H3 Ho Hn Hd Hw Et. apply wpa_act; [shp|]. intros s ls Hi HI. destruct (inv_B _ _ _ _ HI Hi eq_refl) as (Hg&H1&H2&H3&Ho&Hn&Hd). unfold free_target.
    assert (th t ∈ nodes s) as Hin by (apply elem_of_elements; rewrite Hn; by left). rewrite decide_True by done. exists F1. split.
    { eapply back_B; eauto. cbn. split; [|done]. rewrite (elements_remove _ _ Hin) in Hn. by apply Permutation_cons_inv in Hn. }
    clear s ls Hi HI Hg H1 H2 H3 Ho Hn Hd Hin. apply wpa_act; [shp|]. intros s ls Hi HI. destruct (inv_B _ _ _ _ HI Hi eq_refl) as (Hg&H1&H2&H3&Ho&Hn&Hd). unfold flink. destruct (may_dead i s Hd) as [_ ->].
    exists (F2 (head (targets s))). split; [eapply back_B; eauto|]. apply wpa_again. eauto.
  - split; [done|]. intros s ls Hi HI. destruct (inv_B _ _ _ _ HI Hi eq_refl) as (Hg&H1&H2&H3&Ho&Hn&Hd&Hh). destruct (targets s) as [|t' ts] eqn:Et; [|done]. exists Out. split; [done|].
    apply (back_B _ _ _ _ Out Hi); cbn; auto; [by rewrite Et|]. cbn in Hn. by apply Permutation_nil_r.
Qed.
Lemma free_ok i : runs i Free (FREE i) F0.
Proof.
  apply wpa_act; [shp|]. intros s ls Hi HI. destruct (inv_B _ _ _ _ HI Hi eq_refl) as (Hg&H1&H2&H3&Ho&Hn&Hw&Hr). unfold srw_deinit. rewrite Hw, Hr. exists F1. split; [eapply back_B; eauto|].
  clear s ls Hi HI Hg H1 H2 H3 Ho Hn Hw Hr. apply wpa_act; [shp|]. intros s ls Hi HI. destruct (inv_B _ _ _ _ HI Hi eq_refl) as (Hg&H1&H2&H3&Ho&Hn&Hd). unfold flink. destruct (may_dead i s Hd) as [_ ->].
  exists (F2 (head (targets s))). split; [eapply back_B; eauto|]. apply free_loop_ok.
Qed.
Lemma call_hist i o s s' : calls dispatcher i o s = Some s' -> may_call o (hist s) = true /\ s' = set_hist (Called i o :: hist s) s.
Proof. cbn. destruct (may_call o (hist s)); [|done]. by intros [= <-]. Qed.
Lemma call_move s ls i o l' : InvA s ls -> ls !! i = Some Out -> o <> Free -> match o with Unregister true (Some _) => False | _ => True end -> loose l' = None -> held l' = None -> holdsX l' = false -> holdsS l' = false -> closes l' = false ->
  tinv (set_hist (Called i o :: hist s) s) i l' -> InvA (set_hist (Called i o :: hist s) s) (<[i := l']> ls).
Proof.
  intros HI Hi Ho Hu Hl Hh Hx Hs Hc Ht. assert (in_progress (Called i o :: hist s) = in_progress (hist s)) as Ep by done.
  apply (hist_move s ls i Out l' (Called i o)); try done; try by rewrite ?Hl, ?Hx, ?Hs.
  - rewrite (omap_upd0 held ls i Out l' Hi) by (by rewrite Hh). by destruct o as [|[] []| |].
  - intros h Hh'. by left.
  - rewrite Ep. by apply (prog_other _ _ _ _ l' HI Hi).
  - intros j Hj Hr. cbn. by right.
  - intros _. cbn. by left.
Qed.
Lemma call_ok i o s s' ls l : ls !! i = Some l -> l = Out -> Inv s ls -> calls dispatcher i o s = Some s' -> exists l', Inv s' (<[i := l']> ls) /\ runs i o (code dispatcher i o) l'.
Proof.
  intros Hi -> HI (Hc&->)%call_hist. unfold may_call in Hc. apply andb_true_iff in Hc as [Hg Hc]. apply negb_true_iff in Hg. unfold Inv in HI. rewrite Hg in HI.
  assert (o = Free \/ o <> Free) as [->|Hnf] by (destruct o; auto).
  - apply bool_decide_eq_true in Hc. exists F0. split; [|apply free_ok].
    assert (forall j l, ls !! j = Some l -> l = Out) as Hall.
    { intros j l Hj. assert (l = Out \/ l <> Out) as [|Hn] by (destruct l; auto); [done|]. pose proof (a_run _ _ HI _ _ Hj Hn) as Hr. rewrite Hc in Hr. by apply elem_of_nil in Hr. }
    assert (omap loose ls = []) as El. { clear -Hall. induction ls as [|x ls IH]; [done|]. assert (x = Out) as -> by (by apply (Hall 0%nat)). cbn. apply IH. intros j l Hj. by apply (Hall (S j)). }
    apply (back_B _ _ _ _ F0 Hi); cbn; auto; try apply HI; [split; [done|apply HI]|by eapply targets_nodup|by eauto|]. split_and!.
    + pose proof (a_nodes _ _ HI) as Hn. by rewrite El, app_nil_r in Hn.
    + destruct (writer s) as [w|] eqn:E; [|done]. apply (a_writer _ _ HI) in E as (l&Hl&Hx). by rewrite (Hall _ _ Hl) in Hx.
    + destruct (readers s) as [|r rs] eqn:E; [done|]. assert (r ∈ readers s) as Hr by (rewrite E; by left). apply (a_readers _ _ HI) in Hr as (l&Hl&Hx). by rewrite (Hall _ _ Hl) in Hx.
  - assert (given_up (Called i o :: hist s) = false) as Hg' by (by destruct o).
    assert (forall r, refused o r -> code dispatcher i o = Ret r -> exists l', Inv (set_hist (Called i o :: hist s) s) (<[i := l']> ls) /\ runs i o (code dispatcher i o) l') as Href.
    { intros r Hr Hcode. exists (Back o). rewrite Hcode. split; [|by apply refused_ok]. apply inv_back; [done|]. apply call_move; try done. by destruct o as [|[] []| |]. }
    destruct o as [d f c mem|[] [t|]|[] a|]; cbn [code dispatcher] in *; try (by apply (Href (Int 1))).
    + destruct (d && negb (f =? 0) && mem) eqn:E.
      * apply andb_true_iff in E as [[-> Hf]%andb_true_iff ->]. apply negb_true_iff, Z.eqb_neq in Hf. exists (R0 f c). split; [|by apply register_ok]. apply inv_back; [done|]. by apply call_move.
      * eapply Href; [by split|]. unfold REGISTER_TARGET. destruct d, (f =? 0), mem; done.
    + apply bool_decide_eq_true in Hc. exists (U1 t). split; [|apply unregister_ok]. apply inv_back; [done|].
      apply (hist_move s ls i Out (U1 t) (Called i (Unregister true (Some t)))); try done.
      * cbn [handles]. rewrite (omap_gain held ls i _ (U1 t) t Hi eq_refl eq_refl). pose proof (handles_nodup _ _ HI) as (Hnd&_&_)%NoDup_app. pose proof (filter_perm _ _ Hnd Hc) as Hp.
        rewrite Hp at 2. by rewrite <-Permutation_middle.
      * intros h Hh'. by left.
      * by apply (prog_other _ _ _ _ _ HI Hi).
      * intros j Hj Hr. cbn. by right.
      * intros _. cbn. by left.
    + exists (D1 a). split; [|apply dispatch_ok]. apply inv_back; [done|]. apply call_move; try done. cbn. unfold calls_ok. cbn. by rewrite decide_True.
Qed.
Lemma init_ok n : Inv created (replicate n Out).
Proof.
  apply inv_back; [done|]. assert (forall (f : pc -> option handle), f Out = None -> omap f (replicate n Out) = []) as Hom. { intros f Hf. induction n as [|n IH]; [done|]. cbn. by rewrite Hf. }
  split; cbn; try done.
  - intros i. split; [done|]. intros (l&Hl&Hx). apply lookup_replicate in Hl as [-> _]. done.
  - intros i. split; [by intros ?%elem_of_nil|]. intros (l&Hl&Hx). apply lookup_replicate in Hl as [-> _]. done.
  - by rewrite Hom.
  - rewrite Hom by done. by rewrite elements_empty.
  - intros h [?|?%elem_of_nil]; set_solver.
  - apply NoDup_nil_2.
  - intros i l Hl. apply lookup_replicate in Hl as [-> _]. done.
  - by intros h ?%elem_of_nil.
  - by intros i h ?%elem_of_nil.
  - intros i l Hl. apply lookup_replicate in Hl as [-> _]. done.
Qed.
Lemma reach n c : reachable dispatcher created n c -> conf_ok dispatcher Inv (.= Out) blk shape c.
Proof. apply (reach_ok _ _ _ _ _ call_ok) with (l0 := Out); [by intros s s' ls HI []|done|apply init_ok]. Qed.
Lemma inv_ok s ls : Inv s ls -> all_ok (regs s) (hist s) /\ NoDup (th <$> regs s).
Proof. unfold Inv. destruct (given_up (hist s)); intros HI; split; apply HI. Qed.

Lemma history n c later e before : reachable dispatcher created n c -> hist c.1 = later ++ e :: before -> event_ok (regs c.1) e before.
Proof. intros Hr Hh. destruct (reach _ _ Hr) as (ls&_&HI&_). destruct (inv_ok _ _ HI) as [Ha _]. rewrite Hh in Ha. by eapply all_ok_at. Qed.
Lemma order_nodup n c : reachable dispatcher created n c -> NoDup (th <$> regs c.1).
Proof. intros Hr. destruct (reach _ _ Hr) as (ls&_&HI&_). by destruct (inv_ok _ _ HI). Qed.
Lemma order_step n c c' : reachable dispatcher created n c -> step dispatcher c c' ->
  regs c'.1 = regs c.1 \/ exists i f x mem p h, c.2 !! i = Some (Running (Register true f x mem) p) /\ regs c'.1 = regs c.1 ++ [Target h f x].
Proof.
  intros Hr Hs. destruct (reach _ _ Hr) as (ls&Hlen&HI&Hts). destruct Hs as [s ts i o s' Hi Hc|s ts i o X m k x s' Hi Hm|s ts i o r Hi|s ts s' []]; cbn [fst snd] in *.
  - apply call_hist in Hc as [_ ->]. by left.
  - assert (exists l, ls !! i = Some l) as [l Hl] by (apply lookup_lt_is_Some_2; rewrite Hlen; by eapply lookup_lt_Some). pose proof (ok_shape _ _ _ _ _ _ _ _ _ (Hts _ _ _ Hi Hl)) as Hsh. cbn in Hsh.
    destruct (Hsh _ _ _ Hm) as [|(f&c&mem&h&->&E)]; [by left|]. right. eauto 10.
  - by left.
Qed.
Lemma no_crash n c i : reachable dispatcher created n c -> ~ crashed c i.
Proof. intros Hr. eapply ok_no_crash, reach, Hr. Qed.
Lemma no_deadlock n c i : reachable dispatcher created n c -> blocked c i -> exists (j : nat) (o : op) (p : prog disp res), c.2 !! j = Some (Running o p) /\ ~ blocked c j.
Proof.
  intros Hr Hb. destruct (reach _ _ Hr) as (ls&Hlen&HI&Hts). destruct (ok_blocked _ _ _ _ _ _ _ _ Hlen HI Hts Hb) as (l&Hl&Ho&Hc&_&_&Hlk). destruct (inv_A _ _ _ _ HI Hl Ho Hc) as [HA _].
  assert (exists j lj, ls !! j = Some lj /\ (holdsX lj = true \/ holdsS lj = true)) as (j&lj&Hj&Hlj).
  { destruct Hlk as [Hw|Hr'].
    - destruct (writer c.1) as [j|] eqn:E; [|done]. apply (a_writer _ _ HA) in E as (lj&?&?). eauto.
    - destruct (readers c.1) as [|j js] eqn:E; [done|]. assert (j ∈ readers c.1) as Hj by (rewrite E; by left). apply (a_readers _ _ HA) in Hj as (lj&?&?). eauto. }
  assert (exists t, c.2 !! j = Some t) as [t Ht] by (apply lookup_lt_is_Some_2; rewrite <-Hlen; by eapply lookup_lt_Some).
  pose proof (Hts _ _ _ Ht Hj) as Hok. destruct t as [|o p]; [cbn in Hok; subst lj; cbn in Hlj; destruct Hlj; done|]. exists j, o, p. split; [done|]. intros Hbj.
  destruct (ok_blocked _ _ _ _ _ _ _ _ Hlen HI Hts Hbj) as (l'&Hl'&_&_&Hx&Hs&_). rewrite Hj in Hl'. simplify_eq. destruct Hlj; congruence.
Qed.
Lemma memory n c : reachable dispatcher created n c -> (forall j t, c.2 !! j = Some t -> t = Idle) -> elements (nodes c.1) ≡ₚ if given_up (hist c.1) then [] else handles (hist c.1).
Proof.
  intros Hr Hid. destruct (reach _ _ Hr) as (ls&Hlen&HI&Hts). assert (forall j l, ls !! j = Some l -> l = Out) as Hall.
  { intros j l Hj. assert (exists t, c.2 !! j = Some t) as [t Ht] by (apply lookup_lt_is_Some_2; rewrite <-Hlen; by eapply lookup_lt_Some). specialize (Hts _ _ _ Ht Hj). by rewrite (Hid _ _ Ht) in Hts. }
  assert (forall f : pc -> option handle, f Out = None -> omap f ls = []) as El. { intros f Hf. clear -Hall Hf. induction ls as [|x ls IH]; [done|]. assert (x = Out) as -> by (by apply (Hall 0%nat)). cbn. rewrite Hf. apply IH. intros j l Hj. by apply (Hall (S j)). }
  unfold Inv in HI. destruct (given_up (hist c.1)).
  - destruct (b_thr _ _ HI) as (i&l&Hl&_&Hm). rewrite (Hall _ _ Hl) in Hm. by rewrite Hm.
  - rewrite (a_nodes _ _ HI), (a_held _ _ HI), !El by done. by rewrite !app_nil_r.
Qed.
