(** What callers of a channel see. Histories are newest first. *)
From Verif Require Import Common ChanModel.
Local Open Scope Z_scope.

(** The pushes (with their data) and the pulls accepted and not withdrawn (cancelled or abandoned before they had a partner), oldest first; the i-th push and the i-th pull are partners. *)
Fixpoint pushes (h : list event) : list (nat * Z) :=
  match h with
  | [] => []
  | Pushed x _ d :: h => pushes h ++ [(x, d)]
  | Withdrawn x _ :: h => filter (fun p => p.1 ≠ x) (pushes h)
  | _ :: h => pushes h
  end.
Fixpoint pulls (h : list event) : list nat :=
  match h with
  | [] => []
  | Pulled x _ :: h => pulls h ++ [x]
  | Withdrawn x _ :: h => filter (.≠ x) (pulls h)
  | _ :: h => pulls h
  end.
Definition partners (h : list event) (x : nat) (d : Z) (y : nat) : Prop := exists i, pushes h !! i = Some (x, d) /\ pulls h !! i = Some y.
(** x waits for a partner. *)
Definition waiting (h : list event) (x : nat) : Prop :=
  (exists i d, pushes h !! i = Some (x, d) /\ (length (pulls h) <= i)%nat) \/ (exists i, pulls h !! i = Some x /\ (length (pushes h) <= i)%nat).
(** x was accepted, with the handle k *)
Definition handle (h : list event) (x k : nat) : Prop := Pulled x k ∈ h \/ exists d, Pushed x k d ∈ h.
Definition called_back (h : list event) (x : nat) : Prop := exists r pl ps d, Callback x r pl ps d ∈ h.
Definition cancel_called (h : list event) (k : nat) : Prop := exists i sched, Called i (Cancel k sched) ∈ h.
(** A call of async_op_cancel on k has returned, and found it running. *)
Definition cancel_done (h : list event) (k : nat) : Prop := exists i sched, Returned i (Cancel k sched) (State true) ∈ h.
(** The channel is open; is not yet entirely closed *)
Fixpoint open_now (h : list event) : bool := match h with [] => false | Opens _ :: _ => true | Closing :: _ => false | _ :: h => open_now h end.
Fixpoint alive (h : list event) : bool := match h with [] => false | Opens _ :: _ => true | Shut :: _ => false | _ :: h => alive h end.
(** At some time since thread i made its latest call, the channel was not open. *)
Definition not_open_since (i : nat) (h : list event) : Prop := exists h1 h2, h = h1 ++ h2 /\ (forall o, Called i o ∉ h1) /\ open_now h2 = false.
(** Thread i has opened the channel since it made its latest call. *)
Definition opened_since (i : nat) (h : list event) : Prop := exists h1 h2, h = h1 ++ h2 /\ (forall o, Called i o ∉ h1) /\ Opens i ∈ h1.
(** How many calls were answered with x *)
Fixpoint answered (x : nat) (h : list event) : nat := match h with [] => 0 | Returned _ _ (Accepted_as y _) :: h => (if decide (x = y) then 1 else 0) + answered x h | _ :: h => answered x h end.

(** A callback of x gets the ids and the data of the two partners, or x alone. *)
Definition with_partner (h : list event) (x : nat) (pl ps : option nat) (d : option Z) : Prop :=
  exists y v z, partners h y v z /\ ps = Some y /\ pl = Some z /\ ((x = z /\ d = Some v) \/ (x = y /\ d = None)).
Definition by_itself (x : nat) (pl ps : option nat) (d : option Z) : Prop := d = None /\ ((pl = Some x /\ ps = None) \/ (pl = None /\ ps = Some x)).
Definition event_ok (e : event) (before : list event) : Prop :=
  match e with
  | Pushed x k d => (forall k', ~ handle before x k') /\ alive before = true
  | Pulled x k => (forall k', ~ handle before x k') /\ alive before = true
  | Withdrawn x by_close => waiting before x /\ if by_close then Closing ∈ before else exists k, handle before x k /\ cancel_called before k
  | Callback x r pl ps d =>
    ~ called_back before x /\
    (exists k, handle before x k /\ (cancel_done before k -> r = CANCELLED) /\ (r = CANCELLED -> cancel_called before k)) /\
    match r with
    | OK => with_partner before x pl ps d
    | CANCELLED => with_partner before x pl ps d \/ (Withdrawn x false ∈ before /\ by_itself x pl ps d)
    | ABANDONED => Withdrawn x true ∈ before /\ by_itself x pl ps d
    end
  | Shut => forall x, ~ waiting before x
  | Opens _ => alive before = false
  | Returned i (Push d alloc sched) r =>
    match r with Accepted_as x k => Pushed x k d ∈ before /\ answered x before = 0%nat | Failed => alloc = false \/ not_open_since i before | _ => False end
  | Returned i (Pull alloc sched) r =>
    match r with Accepted_as x k => Pulled x k ∈ before /\ answered x before = 0%nat | Failed => alloc = false \/ not_open_since i before | _ => False end
  | Returned i Open r => match r with Void => opened_since i before | Failed => True | _ => False end
  | _ => True
  end.
Fixpoint all_ok (h : list event) : Prop := match h with [] => True | e :: h => event_ok e h /\ all_ok h end.
