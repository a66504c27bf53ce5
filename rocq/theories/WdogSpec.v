(** What the user of a WATCHDOG sees: histories (newest first), and what they must be like. *)
From Verif Require Import Common WdogModel.

(** Whether the callback may be called; the threads in which it runs; the threads in a call of start, reset or stop; whether the watchdog is gone: it has been stopped, or could not be started. *)
Fixpoint is_open (h : list event) : bool := match h with [] => false | Opens _ :: _ => true | Closes _ :: _ => false | _ :: h => is_open h end.
Fixpoint active (h : list event) : list nat := match h with [] => [] | Begins i :: h => i :: active h | Ends i :: h => filter (.≠ i) (active h) | _ :: h => active h end.
Definition uses (o : op) : bool := match o with Start _ _ _ _ | Reset true | Stop true => true | _ => false end.
Fixpoint users (h : list event) : list nat :=
  match h with [] => [] | Called i o :: h => if uses o then i :: users h else users h | Returned i o _ :: h => if uses o then filter (.≠ i) (users h) else users h | _ :: h => users h end.
Fixpoint stopped (h : list event) : bool := match h with [] => false | Returned _ (Stop true) _ :: _ | Returned _ (Start _ _ _ _) (Handle false) :: _ => true | _ :: h => stopped h end.
(** The expiries of the timer since it was last cancelled for which the callback has not been called. *)
Fixpoint credit (h : list event) : nat := match h with [] => 0 | Expires :: h => S (credit h) | Begins _ :: h => pred (credit h) | Cancels _ :: _ => 0 | _ :: h => credit h end.
(** How often the callback has been called, and the timer armed, since the timer was last cancelled. *)
Fixpoint begun (h : list event) : nat := match h with [] => 0 | Begins _ :: h => S (begun h) | Cancels _ :: _ => 0 | _ :: h => begun h end.
Fixpoint periods (h : list event) : nat := match h with [] => 0 | Arms _ :: h => S (periods h) | Cancels _ :: _ => 0 | _ :: h => periods h end.
(** The timer has been cancelled and not been armed since. *)
Fixpoint cancelled (h : list event) : bool := match h with [] => false | Cancels _ :: _ => true | Arms _ :: _ => false | _ :: h => cancelled h end.
(** What thread i has done in its latest call; whether P held at some time since that call. *)
Fixpoint own (i : nat) (h : list event) : list event :=
  match h with
  | [] => []
  | Called j _ :: h => if decide (i = j) then [] else own i h
  | (Opens j | Closes j | Arms j | Cancels j) as e :: h => if decide (i = j) then e :: own i h else own i h
  | _ :: h => own i h
  end.
Fixpoint during (P : list event -> bool) (i : nat) (h : list event) : bool :=
  P h || match h with [] => false | Called j _ :: h' => if decide (i = j) then false else during P i h' | _ :: h' => during P i h' end.
Definition others (i : nat) : list event -> bool := during (fun h => bool_decide (filter (.≠ i) (users h) ≠ [])) i.

Definition event_ok (e : event) (before : list event) : Prop :=
  (match e with Called _ (Stop false | Reset false) | Returned _ (Stop false | Reset false) _ => True | _ => stopped before = false end) /\     (* nothing happens any more *)
  match e with
  | Begins i => is_open before = true /\ 0 < credit before /\ begun before < periods before     (* an expiry of its own, since the timer was last cancelled; once per period *)
  | Closes i => active before = []
  | Returned i (Start a m1 m2 m3) r =>
    r = Handle (a && m1 && m2 && m3) /\ own i before = if a && m1 && m2 && m3 then [Arms i; Opens i] else if a && m1 && m2 then [Opens i] else []
  | Returned i (Reset d) r =>
    r = Void /\
    (d = true -> own i before = [Arms i; Opens i; Cancels i; Closes i] \/ (others i before = true /\ own i before ∈ [[Arms i; Opens i]; [Cancels i; Closes i]; []]))
  | Returned i (Stop d) r => r = Void /\ (d = true -> own i before = [Cancels i; Closes i])
  | _ => True
  end.
