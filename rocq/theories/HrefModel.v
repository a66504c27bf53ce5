(** Structs behind THANDLEs (c_pal), any number of them, made by calls of a system L and used by any number of threads. L says what the calls do when each struct has one user, who disposes of it by the call [kill];
    here users may also copy references to a struct and give them up at any time, and the call that gives up the last reference to a struct makes the call [kill].
    THANDLE_INITIALIZE and THANDLE_ASSIGN are those of c_pal: an increment, a decrement whose thread sees whether the reference was the last, and the dispose function and free by that thread.
    RefsModel.v is the same for one struct that is there from the beginning. L is a system in which nothing happens by itself (env). *)
From Verif Require Import Common Prog Conc.

Local Notation addr := nat.
Section hrefs.
(** kill a: the dispose function of the struct at a; uses: the other calls; makes o r: the struct that the call o has made when it answers r. *)
Context {S O R : Type} (L : system S O R) (kill : addr -> O) (uses : O -> bool) (makes : O -> R -> option addr).
Record held_state := Held {
  inner : S;                    (* what L records *)
  counts : gmap addr nat;       (* the reference counts of the structs; 0, or none: there is no such struct, or it is being disposed of *)
  refs : gmap addr nat;         (* for each struct, the references in the hands of users, not lent to a call *)
}.
Notation HS := held_state.
Definition count_of (a : addr) (s : HS) : nat := counts s !!! a.
Definition refs_to (a : addr) (s : HS) : nat := refs s !!! a.
Definition set_count (a : addr) (n : nat) (s : HS) : HS := Held (inner s) (<[a := n]> (counts s)) (refs s).
Definition set_refs (a : addr) (n : nat) (s : HS) : HS := Held (inner s) (counts s) (<[a := n]> (refs s)).
Definition set_inner (b : S) (s : HS) : HS := Held b (counts s) (refs s).
(** An action of L *)
Definition inside {X} (m : M S X) : M HS X := fun s => match m (inner s) with Done (x, b) => Done (x, set_inner b s) | Undef => Undef | NoFuel => NoFuel end.
(** THANDLE_INITIALIZE: one more reference to a struct, which must be there *)
Definition inc_ref (a : addr) : M HS unit := fun s => match count_of a s with 0 => Undef | n => Done (tt, set_count a (Datatypes.S n) s) end.
(** THANDLE_ASSIGN(NULL): whether the reference was the last one; then the dispose function is called, which must be allowed *)
Definition dec_ref (i : nat) (a : addr) : M HS bool := fun s =>
  match count_of a s with
  | 0 => Undef
  | 1 => match calls L i (kill a) (inner s) with Some b => Done (true, set_count a 0 (set_inner b s)) | None => Undef end
  | Datatypes.S n => Done (false, set_count a n s)
  end.

(** The actions of p; Some: its answer. *)
CoFixpoint on_inner (p : prog S R) : prog HS (option R) :=
  match p with
  | Ret r => Ret (Some r)
  | Act m q => Act (inside m) (fun x => on_inner (q x))
  end.
Inductive hop := HUse (o : O) | HCopy (a : addr) | HDrop (a : addr).
Definition copy_code (a : addr) : prog HS (option R) :=
  act* _ := inc_ref a in
  Ret None.
Definition drop_code (i : nat) (a : addr) : prog HS (option R) :=
  act* last := dec_ref i a in
  if last : bool then on_inner (code L i (kill a)) else Ret None.
(** A call that copies or gives up a reference is lent one; the maker of a struct has the only reference. *)
Definition shared_handles : system HS hop (option R) := {|
  code := fun i o =>
    match o with
    | HUse o => on_inner (code L i o)
    | HCopy a => copy_code a
    | HDrop a => drop_code i a
    end;
  calls := fun i o s =>
    match o with
    | HUse o => if uses o then match calls L i o (inner s) with Some b => Some (set_inner b s) | None => None end else None
    | HCopy a | HDrop a => match refs_to a s with 0 => None | Datatypes.S n => Some (set_refs a n s) end
    end;
  returns := fun i o r s =>
    match o, r with
    | HUse o, Some r =>
      let s' := set_inner (returns L i o r (inner s)) s in
      match makes o r with Some a => set_refs a (Datatypes.S (refs_to a s')) (set_count a 1 s') | None => s' end
    | HCopy a, _ => set_refs a (2 + refs_to a s) s
    | HDrop a, Some r => set_inner (returns L i (kill a) r (inner s)) s
    | _, _ => s
    end;
  env := fun _ _ => False;
|}.
(** Before there is any struct. *)
Definition unshared (s : S) : HS := Held s ∅ ∅.
End hrefs.
Arguments held_state : clear implicits.
Arguments hop : clear implicits.
