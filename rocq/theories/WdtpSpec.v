(** What the callers of the watchdogs' threadpool see: histories (newest first), and what they must be like. *)
From Verif Require Import Common WdtpModel.
Local Open Scope Z_scope.

(** The threadpool that is there; the references to p that callers hold; the threads in a call of init or deinit. *)
Fixpoint current (h : list event) : option nat := match h with [] => None | Up _ p :: _ => Some p | Down _ :: _ => None | _ :: h => current h end.
Fixpoint holding (p : nat) (h : list event) : nat :=
  match h with
  | [] => 0
  | Returned _ Get (Pool (Some q)) :: h => if decide (p = q) then S (holding p h) else holding p h
  | Called _ (Drop q) :: h => if decide (p = q) then pred (holding p h) else holding p h
  | _ :: h => holding p h
  end.
Definition changes (o : op) : bool := match o with Init _ _ | Deinit => true | _ => false end.
Fixpoint users (h : list event) : list nat :=
  match h with [] => [] | Called i o :: h => if changes o then i :: users h else users h | Returned i o _ :: h => if changes o then filter (.≠ i) (users h) else users h | _ :: h => users h end.
(** What thread i has done in its latest call; whether P held at some time since that call. *)
Fixpoint did (i : nat) (h : list event) : list event :=
  match h with
  | [] => []
  | Called j _ :: h => if decide (i = j) then [] else did i h
  | Up j p :: h => if decide (i = j) then Up j p :: did i h else did i h
  | Down j :: h => if decide (i = j) then Down j :: did i h else did i h
  | _ :: h => did i h
  end.
Fixpoint during (P : list event -> bool) (i : nat) (h : list event) : bool :=
  P h || match h with [] => false | Called j _ :: h' => if decide (i = j) then false else during P i h' | _ :: h' => during P i h' end.
Definition down (h : list event) : bool := bool_decide (current h = None).
(** There is a threadpool already, or another call of init or deinit runs. *)
Definition taken (i : nat) (h : list event) : bool := negb (down h) || bool_decide (filter (.≠ i) (users h) ≠ []).

Definition event_ok (e : event) (before : list event) : Prop :=
  match e with
  | Up i p => current before = None /\ forall j, Up j p ∉ before
  | Down i => current before <> None
  | Freed p => current before <> Some p /\ holding p before = 0%nat
  | Returned i (Init m1 m2) r =>
    (r = Int 0 /\ m1 && m2 = true /\ exists p, did i before = [Up i p]) \/ (r = Int 1 /\ did i before = [] /\ (m1 && m2 = false \/ during (taken i) i before = true))
  | Returned i Deinit r => r = Void /\ (did i before = [Down i] \/ (did i before = [] /\ during down i before = true))
  | Returned i Get r => (r = Pool (current before) /\ current before <> None) \/ (r = Pool None /\ during down i before = true)
  | Returned i (Drop p) r => r = Void
  | _ => True
  end.
