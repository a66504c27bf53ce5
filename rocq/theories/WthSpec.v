(** What the users of a WORKER_THREAD see: histories (newest first), and what they must be like. *)
From Verif Require Import Common WthModel.

(** Whether the worker thread is open; the threads in which the worker function runs; the threads that are in a call of open or close. *)
Fixpoint is_open (h : list event) : bool := match h with [] => false | Opens _ :: _ => true | Closes _ :: _ => false | _ :: h => is_open h end.
Fixpoint active (h : list event) : list nat := match h with [] => [] | Begins i :: h => i :: active h | Ends i :: h => filter (.≠ i) (active h) | _ :: h => active h end.
Fixpoint users (h : list event) : list nat :=
  match h with
  | [] => []
  | Called i (Open _ _) :: h | Called i (Close _) :: h => i :: users h
  | Returned i (Open _ _) _ :: h | Returned i (Close _) _ :: h => filter (.≠ i) (users h)
  | _ :: h => users h
  end.
(** P held at some time since the latest call made by thread i. *)
Fixpoint during (P : list event -> bool) (i : nat) (h : list event) : bool :=
  P h || match h with [] => false | Called j _ :: h' => if decide (i = j) then false else during P i h' | _ :: h' => during P i h' end.
Fixpoint opened_by (i : nat) (h : list event) : bool :=
  match h with [] => false | Opens j :: h => if decide (i = j) then true else opened_by i h | Called j _ :: h => if decide (i = j) then false else opened_by i h | _ :: h => opened_by i h end.
(** Since that call a run of the worker function has begun; or, if [c], the worker thread has been closed. *)
Fixpoint served (c : bool) (i : nat) (h : list event) : bool :=
  match h with
  | [] => false
  | Begins _ :: _ => true
  | Closes _ :: h => c || served c i h
  | Called j _ :: h => if decide (i = j) then false else served c i h
  | _ :: h => served c i h
  end.
(** A call of schedule_process has returned OK and has not been served. *)
Fixpoint due (c : bool) (h : list event) : bool :=
  match h with
  | [] => false
  | Begins _ :: _ => false
  | Closes _ :: h => negb c && due c h
  | Returned i (Schedule _) OK :: h => negb (served c i h) || due c h
  | _ :: h => due c h
  end.

Definition event_ok (e : event) (before : list event) : Prop :=
  match e with
  | Begins i => active before = []                                                       (* the worker function never overlaps itself *)
  | Returned i (Open d m) r =>
    if d && m then
      (r = Int 0 /\ opened_by i before = true) \/
      (r = Int 1 /\ opened_by i before = false /\ during (fun h => is_open h || bool_decide (filter (.≠ i) (users h) ≠ [])) i before = true)
    else r = Int 1 /\ opened_by i before = false
  | Returned i (Close d) r => r = Void
  | Returned i (Schedule d) r =>
    if d then (r = OK /\ during is_open i before = true) \/ (r = INVALID_STATE /\ during (fun h => negb (is_open h)) i before = true)
    else r = ERROR
  | Opens i => is_open before = false
  | Closes i => is_open before = true
  | _ => True
  end.
