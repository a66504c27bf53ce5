(** What the users of a cancellation token see: histories of calls, answers and callbacks (newest first), and what they must be like. [b0]: whether the token was created canceled. *)
From Verif Require Import Common CtokModel.
Local Open Scope Z_scope.

(** Something has happened that shows that the token is canceled. *)
Definition shows (e : event) : bool :=
  match e with Returned _ (IsCanceled true) (Bool true) | Returned _ (Cancel true) _ | Begins _ _ _ _ => true | _ => false end.
Definition known (b0 : bool) (h : list event) : bool := b0 || existsb shows h.
(** It was known when thread i made its latest call. *)
Fixpoint knew (b0 : bool) (i : nat) (h : list event) : bool :=
  match h with [] => b0 | Called j _ :: h => if decide (i = j) then known b0 h else knew b0 i h | _ :: h => knew b0 i h end.
(** How often cancel has been called; how often it has returned 0. *)
Fixpoint attempts (h : list event) : nat := match h with [] => 0 | Called _ (Cancel true) :: h => S (attempts h) | _ :: h => attempts h end.
Fixpoint wins (h : list event) : nat := match h with [] => 0 | Returned _ (Cancel true) (Int 0) :: h => S (wins h) | _ :: h => wins h end.
(** The registrations that were in their users' hands when thread i made its latest call of cancel, without those disposed of since. *)
Fixpoint must (i : nat) (h : list event) : list addr :=
  match h with
  | [] => []
  | Called j (Cancel _) :: h => if decide (i = j) then handles h else must i h
  | Called _ (Dispose r) :: h => filter (.≠ r) (must i h)
  | _ :: h => must i h
  end.
(** The callbacks that thread i has made since its latest call, oldest first. *)
Fixpoint made (i : nat) (h : list event) : list (option addr * Z * Z) :=
  match h with
  | [] => []
  | Called j _ :: h => if decide (i = j) then [] else made i h
  | Begins j r f c :: h => if decide (i = j) then made i h ++ [(r, f, c)] else made i h
  | _ :: h => made i h
  end.
(** The registrations notified, newest first; those whose disposal has returned; those whose callback is running, and in which thread. *)
Fixpoint notified (h : list event) : list addr := match h with [] => [] | Begins _ (Some r) _ _ :: h => r :: notified h | _ :: h => notified h end.
Fixpoint disposed (h : list event) : list addr := match h with [] => [] | Returned _ (Dispose r) _ :: h => r :: disposed h | _ :: h => disposed h end.
Fixpoint in_progress (h : list event) : list (nat * option addr) :=
  match h with [] => [] | Begins i r _ _ :: h => (i, r) :: in_progress h | Ends i r :: h => filter (.≠ (i, r)) (in_progress h) | _ :: h => in_progress h end.
Definition shown (t : target) : option addr * Z * Z := (Some (tr t), tf t, tc t).

(** What an event must be like, given what happened before it. [order]: the registrations in the order in which they were made. *)
Definition event_ok (b0 : bool) (order : list target) (e : event) (before : list event) : Prop :=
  match e with
  | Returned i (IsCanceled d) r =>
    made i before = [] /\
    if d then exists b, r = Bool b /\ (knew b0 i before = true -> b = true) /\ (b = true -> b0 = true \/ attempts before <> 0%nat)
    else r = Bool false
  | Returned i (Register d f c m1 m2) r =>
    if d && negb (f =? 0) then
      (r = Handle None /\ made i before = [(None, f, c)] /\ (b0 = true \/ attempts before <> 0%nat)) \/              (* called at once, the token being canceled *)
      (knew b0 i before = false /\ made i before = [] /\
       if m1 && m2 then exists h x, r = Handle (Some x) /\ Target h x f c ∈ order /\ x ∉ handles before else r = Handle None)
    else r = Handle None /\ made i before = []
  | Returned i (Dispose x) r => r = Void /\ made i before = [] /\ forall j, (j, Some x) ∉ in_progress before        (* the callback is not running any more *)
  | Returned i (Cancel d) r =>
    if d then
      (r = Int 0 /\ b0 = false /\ knew b0 i before = false /\ wins before = 0%nat /\
       (exists l, made i before = shown <$> l /\ l `sublist_of` order) /\                                           (* callbacks with their own contexts, in the order of registration *)
       forall x, x ∈ must i before -> x ∈ notified before) \/                                                        (* none is left out *)
      (r = Int 1 /\ made i before = [] /\ (b0 = true \/ (attempts before > 1)%nat))
    else r = Int 1 /\ made i before = []
  | Begins i (Some x) f c => x ∉ notified before /\ x ∉ disposed before /\ exists h, Target h x f c ∈ order         (* at most once, and not after its disposal has returned *)
  | _ => True
  end.
