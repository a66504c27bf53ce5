(** An object that is used by any number of threads, as Conc.v says, and is destroyed in the end: destroy first does what some call of the object (a close) does, then frees the memory.
    Its users must not destroy it while they are in a call, nor call it afterwards; the threads that the object has made itself (the pool's, or its own) keep no such rule. *)
From Verif Require Import Common Prog Conc.

Inductive life := InUse | Doomed | Gone.      (* Doomed: destroy has been called; Gone: the memory is free *)
Record lived (S : Type) := Lived { base : S; phase : life; inside : nat (* the users' calls that are running *) }.
Arguments Lived {S}. Arguments base {S}. Arguments phase {S}. Arguments inside {S}.
Inductive lop (O : Type) := Use (o : O) | Destroy.
Arguments Use {O}. Arguments Destroy {O}.

Section life.
Context {S O R : Type}.
(** The actions of p, each of which uses the memory of the object; then k. *)
Definition touch {X} (m : M S X) : M (lived S) X := fun s =>
  match phase s with
  | Gone => Undef
  | _ => match m (base s) with Done (x, s') => Done (x, Lived s' (phase s) (inside s)) | NoFuel => NoFuel | Undef => Undef end
  end.
CoFixpoint within (p : prog S R) (k : R -> prog (lived S) R) : prog (lived S) R :=
  match p with Ret r => k r | Act m p' => Act (touch m) (fun x => within (p' x) k) end.
(** free, and what destroys the parts of the object just before *)
Definition release : M (lived S) unit := fun s => match phase s with Gone => Undef | _ => Done (tt, Lived (base s) Gone (inside s)) end.
Definition and_release (r : R) : prog (lived S) R := act* _ := release in Ret r.

(** own o: the call is made by a thread of the object itself; closing: the call that destroy begins with; body: its code. *)
Definition lifetime (L : system S O R) (own : O -> bool) (closing : O) (body : nat -> prog S R) : system (lived S) (lop O) R := {|
  code := fun i o => match o with Use o => within (code L i o) Ret | Destroy => within (body i) and_release end;
  calls := fun i o s =>
    match o with
    | Use o =>
      if own o then match calls L i o (base s) with Some s' => Some (Lived s' (phase s) (inside s)) | None => None end
      else match phase s, calls L i o (base s) with InUse, Some s' => Some (Lived s' InUse (Datatypes.S (inside s))) | _, _ => None end
    | Destroy =>
      match phase s, inside s, calls L i closing (base s) with InUse, 0, Some s' => Some (Lived s' Doomed 1) | _, _, _ => None end
    end;
  returns := fun i o r s =>
    match o with
    | Use o => Lived (returns L i o r (base s)) (phase s) (if own o then inside s else pred (inside s))
    | Destroy => Lived (returns L i closing r (base s)) (phase s) (pred (inside s))
    end;
  env := fun s s' => exists b, env L (base s) b /\ s' = Lived b (phase s) (inside s);
|}.
Definition created (s : S) : lived S := Lived s InUse 0.
End life.
