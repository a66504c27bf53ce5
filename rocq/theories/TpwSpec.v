(** What the users of a TP_WORKER_THREAD see: histories (newest first), and what they must be like. *)
From Verif Require Import Common TpwModel.

(** Whether the worker thread is open; the threads in which the worker function runs; the threads that are in a call of open or close. *)
Fixpoint is_open (h : list event) : bool := match h with [] => false | Opens _ :: _ => true | Closes _ :: _ => false | _ :: h => is_open h end.
Fixpoint active (h : list event) : list nat := match h with [] => [] | Begins i :: h => i :: active h | Ends i :: h => filter (.≠ i) (active h) | _ :: h => active h end.
Fixpoint users (h : list event) : list nat :=
  match h with
  | [] => []
  | Called i (Open _ _ _) :: h | Called i (Close _) :: h => i :: users h
  | Returned i (Open _ _ _) _ :: h | Returned i (Close _) _ :: h => filter (.≠ i) (users h)
  | _ :: h => users h
  end.
(** P held at some time since the latest call made by thread i. *)
Fixpoint during (P : list event -> bool) (i : nat) (h : list event) : bool :=
  P h || match h with [] => false | Called j _ :: h' => if decide (i = j) then false else during P i h' | _ :: h' => during P i h' end.
(** A run of the worker function has begun since that call; thread i has opened, or closed, the worker thread since that call. *)
Fixpoint begun_since (i : nat) (h : list event) : bool :=
  match h with [] => false | Begins _ :: _ => true | Called j _ :: h => if decide (i = j) then false else begun_since i h | _ :: h => begun_since i h end.
Fixpoint opened_by (i : nat) (h : list event) : bool :=
  match h with [] => false | Opens j :: h => if decide (i = j) then true else opened_by i h | Called j _ :: h => if decide (i = j) then false else opened_by i h | _ :: h => opened_by i h end.
(** A call of schedule has returned OK, and no run has begun since it was called; scheduling a work item has failed. *)
Fixpoint due (h : list event) : bool :=
  match h with
  | [] => false
  | Begins _ :: _ => false
  | Returned i (Schedule _ _) OK :: h => negb (begun_since i h) || due h
  | _ :: h => due h
  end.
Fixpoint failed (h : list event) : bool := match h with [] => false | Fails _ :: _ => true | _ :: h => failed h end.

Definition event_ok (e : event) (before : list event) : Prop :=
  match e with
  | Begins i => active before = []                                                       (* the worker function never overlaps itself *)
  | Returned i (Open d m1 m2) r =>
    if d && m1 && m2 then
      (r = Int 0 /\ opened_by i before = true) \/
      (r = Int 1 /\ opened_by i before = false /\ during (fun h => is_open h || bool_decide (filter (.≠ i) (users h) ≠ [])) i before = true)
    else r = Int 1 /\ opened_by i before = false
  | Returned i (Close d) r => r = Void
  | Returned i (Schedule d _) r =>
    if d then (r = OK /\ during is_open i before = true) \/ (r = INVALID_STATE /\ during (fun h => negb (is_open h)) i before = true)
    else r = INVALID_ARGS
  | Opens i => is_open before = false
  | Closes i => is_open before = true
  | _ => True
  end.
