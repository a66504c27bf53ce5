(** Code that runs beside other threads: a sequence of atomic actions on the shared state. The same text can be run alone ([exec]) or interleaved with
    other threads ([pool_step]). *)
From Verif Require Import Common.

(** [Act m k]: do m in one step, then go on with k of its result. Code may loop, so it need not be finite. *)
CoInductive prog (S A : Type) : Type :=
| Ret (a : A)
| Act (X : Type) (m : M S X) (k : X -> prog S A).
Arguments Ret {S A} a.
Arguments Act {S A X} m k.

CoFixpoint pbind {S A B} (p : prog S A) (k : A -> prog S B) : prog S B :=
  match p with
  | Ret a => k a
  | Act m k' => Act m (fun x => pbind (k' x) k)
  end.
Definition act {S A} (m : M S A) : prog S A := Act m Ret.

Declare Scope prog_scope.
Delimit Scope prog_scope with prog.
Notation "'let*' x ':=' p 'in' k" := (pbind p (fun x => k))
  (at level 200, x pattern, p at level 100, k at level 200, right associativity) : prog_scope.
Notation "p ';;;' k" := (pbind p (fun _ => k))
  (at level 100, right associativity) : prog_scope.

(** Running alone, for at most n actions. *)
Fixpoint exec {S A} (n : nat) (p : prog S A) (s : S) : outcome (A * S) :=
  match p with
  | Ret a => Done (a, s)
  | Act m k =>
    match n with
    | 0 => NoFuel
    | Datatypes.S n => match m s with Done (x, s') => exec n (k x) s' | Undef => Undef | NoFuel => NoFuel end
    end
  end.

(** Equations for the corecursive pbind. *)
Definition frob {S A} (p : prog S A) : prog S A := match p with Ret a => Ret a | Act m k => Act m k end.
Lemma frob_eq {S A} (p : prog S A) : p = frob p.
Proof. by destruct p. Qed.
Lemma pbind_ret {S A B} (a : A) (k : A -> prog S B) : pbind (Ret a) k = k a.
Proof. rewrite (frob_eq (pbind _ _)). simpl. by destruct (k a). Qed.
Lemma pbind_act {S A B X} (m : M S X) (k' : X -> prog S A) (k : A -> prog S B) : pbind (Act m k') k = Act m (fun x => pbind (k' x) k).
Proof. by rewrite (frob_eq (pbind _ _)). Qed.

(** Threads that call a library. A thread holds things (of type H: a reference to an object, a block of memory...). While it makes a call, the things the call uses are
    not in its hands; the answer of the call tells what it holds afterwards. *)
Section pool.
Context {S O R H : Type}.
Record library := Library {
  code : O -> prog S R;             (* what a call does *)
  allowed : O -> Prop;              (* what a caller may ask for, whatever it holds *)
  uses : O -> list H;               (* what the caller must hold, and puts into the call *)
  gives : O -> R -> list H;         (* what it holds when the call has answered *)
}.
Context (L : library).

Inductive thread := Idle (held : list H) | Running (o : O) (before : S) (p : prog S R) (held : list H).

(** One step of the thread with this number. [crash]: the step is undefined behaviour. Calls are made on things the thread holds; a thread may also hand
    something to another thread, between calls. [before] is the state in which the call was made. *)
Inductive pool_step (i : nat) : S * list thread -> S * list thread -> Prop :=
| step_call s ts held o rest : ts !! i = Some (Idle held) -> allowed L o -> held ≡ₚ uses L o ++ rest ->
    pool_step i (s, ts) (s, <[i := Running o s (code L o) rest]> ts)
| step_run s ts o b X (m : M S X) k held x s' : ts !! i = Some (Running o b (Act m k) held) -> m s = Done (x, s') ->
    pool_step i (s, ts) (s', <[i := Running o b (k x) held]> ts)
| step_answer s ts o b r held : ts !! i = Some (Running o b (Ret r) held) ->
    pool_step i (s, ts) (s, <[i := Idle (gives L o r ++ held)]> ts)
| step_hand s ts j held held' x rest : i <> j -> ts !! i = Some (Idle held) -> ts !! j = Some (Idle held') -> held ≡ₚ x :: rest ->
    pool_step i (s, ts) (s, <[i := Idle rest]> (<[j := Idle (x :: held')]> ts)).

Inductive pool_steps : S * list thread -> S * list thread -> Prop :=
| steps_nil c : pool_steps c c
| steps_step c i c' c'' : pool_steps c c' -> pool_step i c' c'' -> pool_steps c c''.
(** Steps of threads other than i. *)
Inductive others (i : nat) : S * list thread -> S * list thread -> Prop :=
| others_nil c : others i c c
| others_step c j c' c'' : others i c c' -> i <> j -> pool_step j c' c'' -> others i c c''.

(** A thread about to do something undefined. *)
Definition crashes (c : S * list thread) : Prop :=
  exists i o b X (m : M S X) k held, c.2 !! i = Some (Running o b (Act m k) held) /\ (forall x s', m c.1 <> Done (x, s')).
(** The call thread i is in will be over after finitely many steps of its own, whatever the other threads do meanwhile. *)
Inductive finishes (i : nat) : S * list thread -> Prop :=
| fin_idle c held : c.2 !! i = Some (Idle held) -> finishes i c
| fin_run c : (forall c' c'', others i c c' -> pool_step i c' c'' -> finishes i c'') -> finishes i c.
End pool.
Arguments library : clear implicits.
Arguments thread : clear implicits.
