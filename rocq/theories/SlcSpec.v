(** What the histories of a sliding window used by threads are. *)
From Coq Require Import SpecFloat.
From Verif Require Import Common SlidingSpec SlcModel.
Local Open Scope Z_scope.

(** The values added so far, in the order in which they took effect. *)
Fixpoint added (h : list event) : list Z := match h with [] => [] | Acts _ v :: h => added h ++ [v] | _ :: h => added h end.
(** The values that thread i has added since its last call was made. *)
Fixpoint added_by (i : nat) (h : list event) : list Z :=
  match h with
  | [] => []
  | Acts j v :: h => if decide (j = i) then added_by i h ++ [v] else added_by i h
  | Called j _ :: h => if decide (j = i) then [] else added_by i h
  | _ :: h => added_by i h
  end.
(** a is the average of the window at some moment since thread i made its last call. *)
Definition average_meanwhile (w i : nat) (a : spec_float) (h : list event) : Prop :=
  exists since before, h = since ++ before /\ (forall o, Called i o ∉ since) /\ a = average (window w (added before)).
(** What an event means: an addition takes effect once, between the call and its answer; an average is the average at a moment between the call and its answer. *)
Definition event_ok (w : nat) (e : event) (before : list event) : Prop :=
  match e with
  | Returned i (Add d v) r => if d then r = Int 0 /\ added_by i before = [v] else r = Int 1 /\ added_by i before = []
  | Returned i (Get d p) r => added_by i before = [] /\ if d && p then exists a, r = Avg (Some a) /\ average_meanwhile w i a before else r = Avg None
  | _ => True
  end.
