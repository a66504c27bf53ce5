(** A struct behind a THANDLE (c_pal), used by any number of threads: the system L of calls on the struct, one of which, [free], is the dispose function and is made by the call that gives up the last reference.
    L says what the calls do while the struct is there; here each user has references, lends one to each call, and may copy and give up references at any time.
    THANDLE_INITIALIZE and THANDLE_ASSIGN are those of c_pal: an increment, a decrement whose thread sees whether the reference was the last, and the dispose function and free by that thread.
    L is a system in which nothing happens by itself (env). *)
From Verif Require Import Common Prog Conc.

Section refs.
Context {S O R : Type} (L : system S O R) (free : O) (uses : O -> bool).
Record counted_state := Counted {
  base : S;             (* the struct, and what L records *)
  count : nat;          (* its reference count *)
  hands : nat;          (* the references in the hands of users, not lent to a call *)
  freed : bool;         (* whether the struct has been freed *)
}.
Notation RS := counted_state.
(** An action on the struct: an error once it has been freed. *)
Definition touch {X} (m : M S X) : M RS X := fun s =>
  if freed s then Undef else match m (base s) with Done (x, b) => Done (x, Counted b (count s) (hands s) false) | Undef => Undef | NoFuel => NoFuel end.
(** THANDLE_INITIALIZE: one more reference *)
Definition inc_ref : M RS unit := fun s => if freed s then Undef else Done (tt, Counted (base s) (Datatypes.S (count s)) (hands s) false).
(** THANDLE_ASSIGN(NULL): whether the reference was the last one; then the dispose function is called, which must be allowed *)
Definition dec_ref (i : nat) : M RS bool := fun s =>
  if freed s then Undef else
  match count s with
  | 0 => Undef
  | 1 => match calls L i free (base s) with Some b => Done (true, Counted b 0 (hands s) false) | None => Undef end
  | Datatypes.S n => Done (false, Counted (base s) n (hands s) false)
  end.
(** The dispose function has returned, and the struct is freed *)
Definition free_struct (i : nat) (r : R) : M RS unit := fun s => if freed s then Undef else Done (tt, Counted (returns L i free r (base s)) (count s) (hands s) true).

(** The actions of p, and then k. *)
CoFixpoint on_struct {A} (p : prog S R) (k : R -> prog RS A) : prog RS A :=
  match p with
  | Ret r => match k r with Ret x => Ret x | Act m q => Act m q end
  | Act m q => Act (touch m) (fun x => on_struct (q x) k)
  end.
Inductive rop := Use (o : O) | Copy | Drop.
Definition dispose (i : nat) (r : R) : prog RS (option R) :=
  act* _ := free_struct i r in
  Ret None.
Definition copy_code : prog RS (option R) :=
  act* _ := inc_ref in
  Ret None.
Definition drop_code (i : nat) : prog RS (option R) :=
  act* last := dec_ref i in
  if last : bool then on_struct (code L i free) (dispose i) else Ret None.
(** The references that the caller has when a call is done; each call is lent one. *)
Definition given (o : rop) : nat := match o with Use _ => 1 | Copy => 2 | Drop => 0 end.
Definition counted : system RS rop (option R) := {|
  code := fun i o =>
    match o with
    | Use o => on_struct (code L i o) (fun r => Ret (Some r))
    | Copy => copy_code
    | Drop => drop_code i
    end;
  calls := fun i o s =>
    match hands s with
    | 0 => None
    | Datatypes.S n =>
      match o with
      | Use o => if uses o then match calls L i o (base s) with Some b => Some (Counted b (count s) n (freed s)) | None => None end else None
      | _ => Some (Counted (base s) (count s) n (freed s))
      end
    end;
  returns := fun i o r s =>
    Counted (match o, r with Use o, Some r => returns L i o r (base s) | _, _ => base s end) (count s) (hands s + given o) (freed s);
  env := fun _ _ => False;
|}.
(** The creator has the only reference. *)
Definition made (s : S) : RS := Counted s 1 1 false.
End refs.
Arguments counted_state : clear implicits.
Arguments rop : clear implicits.
