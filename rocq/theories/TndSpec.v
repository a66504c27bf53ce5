(** What the callers of the dispatcher of thread notifications see: histories (newest first), and what they must be like. *)
From Verif Require Import Common TndModel.
Local Open Scope Z_scope.

(** The dispatcher that notifications go to; the references to p that callers hold; the functions registered with p, in the order in which they were registered. *)
Fixpoint current (h : list event) : option nat := match h with [] => None | Up _ p :: _ => Some p | Down _ :: _ => None | _ :: h => current h end.
Fixpoint holding (p : nat) (h : list event) : nat :=
  match h with
  | [] => 0
  | Returned _ Get (Disp (Some q)) :: h => if decide (p = q) then S (holding p h) else holding p h
  | Called _ (Drop q) :: h => if decide (p = q) then pred (holding p h) else holding p h
  | _ :: h => holding p h
  end.
Fixpoint registered (p : nat) (h : list event) : list (nat * Z) :=
  match h with
  | [] => []
  | Registers _ q t f :: h => if decide (p = q) then registered p h ++ [(t, f)] else registered p h
  | Unregisters _ q t :: h => if decide (p = q) then filter (fun x => x.1 <> t) (registered p h) else registered p h
  | _ :: h => registered p h
  end.
(** What thread i has done in its latest call; whether P held at some time since that call. *)
Fixpoint did (i : nat) (h : list event) : list event :=
  match h with
  | [] => []
  | e :: h =>
    match e with
    | Called j _ => if decide (i = j) then [] else did i h
    | Up j _ | Down j | Registers j _ _ _ | Unregisters j _ _ | Calls j _ _ _ => if decide (i = j) then e :: did i h else did i h
    | _ => did i h
    end
  end.
Fixpoint during (P : list event -> bool) (i : nat) (h : list event) : bool :=
  P h || match h with [] => false | Called j _ :: h' => if decide (i = j) then false else during P i h' | _ :: h' => during P i h' end.
Definition down (h : list event) : bool := bool_decide (current h = None).

Definition event_ok (e : event) (before : list event) : Prop :=
  match e with
  | Up i p => current before = None /\ (forall j, Up j p ∉ before) /\ registered p before = []          (* a new dispatcher, with nothing registered *)
  | Down i => current before <> None
  | Freed p => current before <> Some p /\ holding p before = 0%nat
  | Calls i p reason l => current before = Some p /\ l = registered p before                              (* exactly the registered functions, in order *)
  | Returned i (Init m1 m2) r =>
    (r = Int 0 /\ m1 && m2 = true /\ exists p, did i before = [Up i p]) \/ (r = Int 1 /\ did i before = [] /\ (m1 && m2 = false \/ current before <> None))
  | Returned i Deinit r => r = Void /\ (did i before = [Down i] \/ (did i before = [] /\ current before = None))
  | Returned i Get r => r = Disp (current before)
  | Returned i (Notify reason) r => r = Void /\ ((exists p l, did i before = [Calls i p reason l]) \/ (did i before = [] /\ during down i before = true))
  | Returned i (Drop p) r => r = Void
  | Returned i (Register p f m) r => if m then exists t, r = Handle (Some t) /\ did i before = [Registers i p t f] else r = Handle None /\ did i before = []
  | Returned i (Unregister p t) r => r = Int 0 /\ did i before = [Unregisters i p t]
  | Registers i p t f => forall q g, (t, g) ∉ registered q before                                        (* the handle is a new one *)
  | _ => True
  end.
