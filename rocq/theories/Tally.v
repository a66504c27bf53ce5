(** Sums over finite maps, occurrences in lists. *)
From Verif Require Import Common.

Definition tally {A} (f : nat -> A -> nat) (m : gmap nat A) : nat := map_fold (fun k x n => f k x + n) 0 m.
Fixpoint occ (b : nat) (l : list nat) : nat := match l with [] => 0 | x :: l => (if decide (x = b) then 1 else 0) + occ b l end.

Section Tally.
Context {A : Type}.
Implicit Types (f g : nat -> A -> nat) (m : gmap nat A).
Lemma tally_empty f : tally f ∅ = 0.
Proof. by unfold tally; rewrite map_fold_empty. Qed.
Lemma tally_insert f m k x : m !! k = None -> tally f (<[k:=x]> m) = f k x + tally f m.
Proof. intros H. unfold tally. rewrite map_fold_insert_L; [done| |done]. intros; lia. Qed.
Lemma tally_delete f m k x : m !! k = Some x -> tally f m = f k x + tally f (delete k m).
Proof. intros H. rewrite <- (insert_delete m k x H) at 1. rewrite tally_insert; [done|]. by rewrite lookup_delete. Qed.
Lemma tally_update f m k x y : m !! k = Some x -> tally f (<[k:=y]> m) + f k x = tally f m + f k y.
Proof.
  intros H. rewrite <- insert_delete_insert, tally_insert by by rewrite lookup_delete. rewrite (tally_delete f m k x H). lia.
Qed.
Lemma tally_ext f g m : (forall k x, m !! k = Some x -> f k x = g k x) -> tally f m = tally g m.
Proof.
  induction m as [|k x m H IH] using map_ind; intros E; [by rewrite !tally_empty|].
  rewrite !tally_insert by done. rewrite (E k x) by by rewrite lookup_insert. rewrite IH; [done|].
  intros k' x' Hk. apply E. rewrite lookup_insert_ne; [done|congruence].
Qed.
Lemma tally_ge f m k x : m !! k = Some x -> f k x <= tally f m.
Proof. intros H. rewrite (tally_delete f m k x H). lia. Qed.
Lemma tally_pos f m : 0 < tally f m -> exists k x, m !! k = Some x /\ 0 < f k x.
Proof.
  induction m as [|k x m H IH] using map_ind; rewrite ?tally_empty, ?tally_insert by done; [lia|]. intros Hp.
  destruct (decide (0 < f k x)) as [Hx|Hx]; [exists k, x; by rewrite lookup_insert|].
  destruct IH as (k' & x' & Hk & ?); [lia|]. exists k', x'. rewrite lookup_insert_ne; [done|congruence].
Qed.
Lemma tally_zero f m : (forall k x, m !! k = Some x -> f k x = 0) -> tally f m = 0.
Proof. intros H. destruct (tally f m) as [|n] eqn:E; [done|]. destruct (tally_pos f m) as (k & x & Hk & ?); [lia|]. specialize (H k x Hk). lia. Qed.
End Tally.

Lemma occ_app b l1 l2 : occ b (l1 ++ l2) = occ b l1 + occ b l2.
Proof. induction l1; simpl; lia. Qed.
Lemma occ_elem b l : b ∈ l <-> 0 < occ b l.
Proof.
  induction l as [|x l IH]; simpl; [split; [by intros ?%elem_of_nil|lia]|]. rewrite elem_of_cons, IH. destruct (decide (x = b)); split; intros H; lia.
Qed.
Lemma occ_none b l : b ∉ l -> occ b l = 0.
Proof. rewrite occ_elem. lia. Qed.
Lemma occ_lookup b l i : l !! i = Some b -> 0 < occ b l.
Proof. intros H. apply occ_elem. by eapply elem_of_list_lookup_2. Qed.
