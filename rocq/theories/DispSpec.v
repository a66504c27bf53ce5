(** What a user of a TCALL_DISPATCHER sees: histories of calls, answers and invocations of targets (newest first), and what they must be like. *)
From Verif Require Import Common DispModel.
Local Open Scope Z_scope.

(** For the latest dispatch made by thread i: the handles that were in their users' hands when it was called and have not been unregistered since; the invocations it has made, oldest first. *)
Fixpoint must (i : nat) (h : list event) : list handle :=
  match h with
  | [] => []
  | e :: h =>
    match e with
    | Called j (Dispatch _ _) => if decide (i = j) then handles h else must i h
    | Called j (Unregister true (Some t)) => filter (.≠ t) (must i h)
    | _ => must i h
    end
  end.
Fixpoint invoked (i : nat) (h : list event) : list (target * Z) :=
  match h with
  | [] => []
  | e :: h =>
    match e with
    | Called j (Dispatch _ _) => if decide (i = j) then [] else invoked i h
    | Begins j t a => if decide (i = j) then invoked i h ++ [(t, a)] else invoked i h
    | _ => invoked i h
    end
  end.
(** The targets whose UNREGISTER_TARGET has returned; the targets that are being called, and by which thread. *)
Fixpoint unregistered (h : list event) : list handle :=
  match h with [] => [] | Returned _ (Unregister true (Some t)) _ :: h => t :: unregistered h | _ :: h => unregistered h end.
Fixpoint in_progress (h : list event) : list (nat * handle) :=
  match h with [] => [] | Begins i t _ :: h => (i, th t) :: in_progress h | Ends i t :: h => filter (.≠ (i, t)) (in_progress h) | _ :: h => in_progress h end.

(** What an event must be like, given what happened before it. [order]: the targets in the order in which they were registered. *)
Definition event_ok (order : list target) (e : event) (before : list event) : Prop :=
  match e with
  | Returned i (Dispatch d a) r =>
    if d then
      r = Int 0 /\
      (forall x, x ∈ invoked i before -> x.2 = a) /\                                   (* targets are called with the arguments of the dispatch *)
      (invoked i before).*1 `sublist_of` order /\                                      (* with their own context, in the order of registration, each at most once *)
      (forall t, t ∈ must i before -> t ∈ th <$> (invoked i before).*1)                (* and every registered target is called *)
    else r = Int 1
  | Begins i t a => th t ∉ unregistered before                                         (* not after unregister has returned *)
  | Returned i (Unregister d t) r =>
    match d, t with
    | true, Some t => r = Int 0 /\ forall j, (j, t) ∉ in_progress before               (* the target is not still running when unregister returns *)
    | _, _ => r = Int 1
    end
  | Returned i (Register d f c mem) r =>
    if d && negb (f =? 0) && mem then exists t, r = Handle (Some t) /\ Target t f c ∈ order /\ t ∉ handles before
    else r = Handle None
  | _ => True
  end.
