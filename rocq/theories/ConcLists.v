(** Lemmas about lists of local states, for proofs with Conc. *)
From Verif Require Import Common Prog Conc.

Lemma upd_some {A} (ls : list A) i (l' : A) j lj : <[i := l']> ls !! j = Some lj -> (j = i /\ lj = l') \/ (j <> i /\ ls !! j = Some lj).
Proof. intros [(<-&<-&_)|(?&?)]%list_lookup_insert_Some; auto. Qed.
Lemma upd_at {A} (ls : list A) i (l l' : A) : ls !! i = Some l -> <[i := l']> ls !! i = Some l'.
Proof. intros Hi. apply list_lookup_insert. by eapply lookup_lt_Some. Qed.
Lemma omap_upd {A B} (f : A -> option B) (ls : list A) i l l' : ls !! i = Some l -> option_list (f l) ++ omap f (<[i := l']> ls) ≡ₚ option_list (f l') ++ omap f ls.
Proof.
  revert i. induction ls as [|x ls IH]; intros [|i] Hi; simplify_eq/=.
  - destruct (f l), (f l'); cbn; try done. apply Permutation_swap.
  - specialize (IH i Hi). destruct (f x) as [y|]; [|done]. rewrite <-!Permutation_middle. by rewrite IH.
Qed.
Lemma omap_upd0 {A B} (f : A -> option B) (ls : list A) i l l' : ls !! i = Some l -> f l = f l' -> omap f (<[i := l']> ls) ≡ₚ omap f ls.
Proof. intros Hi E. pose proof (omap_upd f ls i l l' Hi) as H. rewrite E in H. by apply Permutation_app_inv_l in H. Qed.
Lemma omap_gain {A B} (f : A -> option B) (ls : list A) i l l' h : ls !! i = Some l -> f l = None -> f l' = Some h -> omap f (<[i := l']> ls) ≡ₚ h :: omap f ls.
Proof. intros Hi E1 E2. pose proof (omap_upd f ls i l l' Hi) as H. by rewrite E1, E2 in H. Qed.
Lemma omap_lose {A B} (f : A -> option B) (ls : list A) i l l' h : ls !! i = Some l -> f l = Some h -> f l' = None -> h :: omap f (<[i := l']> ls) ≡ₚ omap f ls.
Proof. intros Hi E1 E2. pose proof (omap_upd f ls i l l' Hi) as H. by rewrite E1, E2 in H. Qed.
Lemma omap_in {A B} (f : A -> option B) (ls : list A) i l h : ls !! i = Some l -> f l = Some h -> h ∈ omap f ls.
Proof. intros Hi Hf. apply elem_of_list_omap. exists l. split; [|done]. by eapply elem_of_list_lookup_2. Qed.
Lemma omap_replicate {A B} (f : A -> option B) n l : f l = None -> omap f (replicate n l) = [].
Proof. intros Hf. induction n as [|n IH]; [done|]. cbn. by rewrite Hf. Qed.
Lemma omap_none {A B} (f : A -> option B) (ls : list A) : (forall j l, ls !! j = Some l -> f l = None) -> omap f ls = [].
Proof. induction ls as [|x ls IH]; intros H; [done|]. cbn. rewrite (H 0 x eq_refl). apply IH. intros j l Hj. by apply (H (S j)). Qed.
(** Who satisfies b among the local states, when one of them changes. *)
Lemma who_upd {A} (b : A -> bool) (ls : list A) i l l' j : ls !! i = Some l ->
  (exists lj, <[i := l']> ls !! j = Some lj /\ b lj = true) <-> (if decide (j = i) then b l' = true else exists lj, ls !! j = Some lj /\ b lj = true).
Proof.
  intros Hi. case_decide as E.
  - subst. rewrite list_lookup_insert by (by eapply lookup_lt_Some). naive_solver.
  - rewrite list_lookup_insert_ne by done. done.
Qed.
Lemma who_same {A} (b : A -> bool) (ls : list A) i l l' j : ls !! i = Some l -> b l = b l' -> (exists lj, <[i := l']> ls !! j = Some lj /\ b lj = true) <-> (exists lj, ls !! j = Some lj /\ b lj = true).
Proof. intros Hi Hb. rewrite (who_upd b ls i l l' j Hi). case_decide; [|done]. subst. rewrite Hi. naive_solver. Qed.
Lemma thr_upd {A} (P : nat -> A -> Prop) (ls : list A) i l' : P i l' -> (forall j l, ls !! j = Some l -> j <> i -> P j l) -> forall j l, <[i := l']> ls !! j = Some l -> P j l.
Proof. intros H1 H2 j l [[-> ->]|[? ?]]%upd_some; auto. Qed.

Lemma sublist_in {A} (l k : list A) x : l `sublist_of` k -> x ∈ l -> x ∈ k.
Proof. intros H Hx. eapply elem_of_submseteq; [exact Hx|]. by apply sublist_submseteq. Qed.
Lemma sublist_nodup {A} (l k : list A) : l `sublist_of` k -> NoDup k -> NoDup l.
Proof.
  induction 1 as [|x l k Hs IH|x l k Hs IH]; intros Hn; [done| |].
  - apply NoDup_cons in Hn as [Hx Hn]. apply NoDup_cons. split; [|auto]. intros Hin. apply Hx. by eapply sublist_in.
  - apply NoDup_cons in Hn as [Hx Hn]. auto.
Qed.
Lemma filter_id {A} (P : A -> Prop) `{!forall x, Decision (P x)} (l : list A) : (forall x, x ∈ l -> P x) -> filter P l = l.
Proof. induction l as [|t l IH]; [done|]. intros HP. rewrite filter_cons, decide_True by (apply HP; by left). rewrite IH; [done|]. intros x Hx. apply HP. by right. Qed.
Lemma filter_sublist {A} (P : A -> Prop) `{!forall x, Decision (P x)} (l : list A) : filter P l `sublist_of` l.
Proof. induction l as [|t l IH]; [done|]. rewrite filter_cons. case_decide; [by apply sublist_skip|by apply sublist_cons]. Qed.
Lemma filter_perm {A} `{!EqDecision A} (l : list A) h : NoDup l -> h ∈ l -> l ≡ₚ h :: filter (.≠ h) l.
Proof.
  induction l as [|t l IH]; [by intros _ ?%elem_of_nil|]. intros [Hn Hd]%NoDup_cons Hh. rewrite filter_cons. destruct (decide (t = h)) as [E|E].
  - rewrite decide_False by naive_solver. subst h. f_equiv. rewrite filter_id; [done|]. intros x Hx ->. done.
  - rewrite decide_True by done. apply elem_of_cons in Hh as [|Hh]; [done|]. rewrite (IH Hd Hh) at 1. apply Permutation_swap.
Qed.
Lemma elements_remove (X : gset nat) h : h ∈ X -> elements X ≡ₚ h :: elements (X ∖ {[h]}).
Proof. intros Hh. rewrite (union_difference_singleton_L h X) at 1 by done. apply elements_union_singleton. set_solver. Qed.

(** What is known without restart points holds with them. *)
Lemma wpa_weaken {S O R T} (Inv : S -> list T -> Prop) blk (shape : O -> prog S R -> T -> Prop) (A : prog S R -> T -> Prop) i o Q p l :
  wp Inv blk shape i o Q p l -> wpa Inv blk shape A i o Q p l.
Proof. intros (W&H1&H2). exists W. split; [done|]. intros p' l' Hp'. right. by destruct (H2 _ _ Hp') as [[]|]. Qed.

(** How many local states satisfy b. *)
Definition cnt {A} (b : A -> bool) (ls : list A) : nat := num (fun x => b x = true) ls.
Lemma cnt_upd {A} (b : A -> bool) (ls : list A) i l l' : ls !! i = Some l -> cnt b (<[i := l']> ls) + Nat.b2n (b l) = cnt b ls + Nat.b2n (b l').
Proof. intros Hi. pose proof (num_insert (fun x => b x = true) ls i l l' Hi) as H. cbv beta in H. unfold cnt. destruct (b l) eqn:E1, (b l') eqn:E2; repeat case_decide; try congruence; cbn [Nat.b2n]; lia. Qed.
Lemma cnt_same {A} (b : A -> bool) (ls : list A) i l l' : ls !! i = Some l -> b l = b l' -> cnt b (<[i := l']> ls) = cnt b ls.
Proof. intros Hi E. pose proof (cnt_upd b ls i l l' Hi) as H. rewrite E in H. lia. Qed.
Lemma cnt_pos {A} (b : A -> bool) (ls : list A) i l : ls !! i = Some l -> b l = true -> 0 < cnt b ls.
Proof. intros Hi Hb. by eapply num_pos. Qed.
Lemma cnt_two {A} (b : A -> bool) (ls : list A) i j l k : i <> j -> ls !! i = Some l -> ls !! j = Some k -> b l = true -> b k = true -> 1 < cnt b ls.
Proof. intros ? ? ? ? ?. by eapply num_two. Qed.
Lemma cnt_replicate {A} (b : A -> bool) n l : b l = false -> cnt b (replicate n l) = 0.
Proof. intros Hb. apply num_replicate. by rewrite Hb. Qed.
Lemma cnt_ex {A} (b : A -> bool) (ls : list A) : 0 < cnt b ls -> exists i l, ls !! i = Some l /\ b l = true.
Proof. apply num_ex. Qed.
Lemma cnt_sum {A} (b b1 b2 : A -> bool) (ls : list A) : (forall l, Nat.b2n (b l) = Nat.b2n (b1 l) + Nat.b2n (b2 l)) -> cnt b ls = cnt b1 ls + cnt b2 ls.
Proof.
  intros H. unfold cnt, num. induction ls as [|l ls IH]; [done|]. rewrite !filter_cons. specialize (H l). destruct (b l) eqn:E, (b1 l) eqn:E1, (b2 l) eqn:E2; repeat case_decide; try congruence; cbn [length Nat.b2n] in *; lia.
Qed.
