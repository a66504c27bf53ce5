(** The reference count of a CANCELLATION_TOKEN (src/cancellation_token.c), used by any number of threads. CtokModel.v models the calls on a token that outlives them all; here the token is freed
    when its last reference goes away. References are in the hands of the users, who lend one to each call that takes the token, and in the field `token` of each registration.
    Atomic actions: those of CtokModel.v, and each change of the reference count. The counts of THANDLEs are those of c_pal: an increment, a decrement whose thread sees whether it was the last, and the
    dispose function and free by that thread. The field `token` of a registration is accessed in the action that changes the count: only the thread that makes or disposes of the registration has it.
    The registrations' own counts are added in CthModel.v; here a registration is disposed of by the call that gives up its last reference (CtokModel.v). *)
From Verif Require Import Common Prog Conc CtokModel.

Record shared := Shared {
  base : tok;                    (* see CtokModel.v *)
  count : nat;                   (* the token's reference count *)
  freed : bool;                  (* whether the token has been disposed of and freed *)
  fields : gset addr;            (* the registrations whose field `token` holds a reference *)
  hands : nat;                   (* the references in the hands of users, not lent to a call *)
}.
Definition set_base b s := Shared b (count s) (freed s) (fields s) (hands s).
Definition set_hands n s := Shared (base s) (count s) (freed s) (fields s) n.
(** An action of CtokModel.v: on the token, so an error when it has been freed; or on things other than the token. *)
Definition apart {X} (m : M tok X) : M shared X := fun s => match m (base s) with Done (x, b) => Done (x, set_base b s) | Undef => Undef | NoFuel => NoFuel end.
Definition touch {X} (m : M tok X) : M shared X := fun s => if freed s then Undef else apart m s.
(** THANDLE_INITIALIZE: a reference that is made into another one *)
Definition inc_ref : M shared unit := fun s => if freed s then Undef else Done (tt, Shared (base s) (S (count s)) false (fields s) (hands s)).
(** THANDLE_ASSIGN(NULL): whether the reference was the last one *)
Definition dec_ref : M shared bool := fun s =>
  if freed s then Undef else match count s with O => Undef | S n => Done (bool_decide (n = O), Shared (base s) n false (fields s) (hands s)) end.
(** cancellation_token.c:182: THANDLE_INITIALIZE(CANCELLATION_TOKEN)(&registration_ptr->token, cancellation_token). The registration is new, so its field must hold nothing. *)
Definition take_field (r : addr) : M shared unit := fun s =>
  if freed s then Undef else if decide (r ∈ fields s) then Undef else Done (tt, Shared (base s) (S (count s)) false ({[r]} ∪ fields s) (hands s)).
(** cancellation_token.c:59: THANDLE_ASSIGN(CANCELLATION_TOKEN)(&registration->token, NULL), up to the decrement *)
Definition drop_field (r : addr) : M shared bool := fun s =>
  if decide (r ∈ fields s) then
    if freed s then Undef else match count s with O => Undef | S n => Done (bool_decide (n = O), Shared (base s) n false (fields s ∖ {[r]}) (hands s)) end
  else Undef.
(** cancellation_token.c:45-49, and the token's memory being given back: the lock of the dispatcher must not be held *)
Definition dispose_token : M shared unit := fun s =>
  if freed s then Undef else match reading (base s) with None => Done (tt, Shared (base s) (count s) true (fields s) (hands s)) | Some _ => Undef end.

(** The actions of p, and then k. *)
CoFixpoint on_token (p : prog tok res) (k : res -> prog shared res) : prog shared res :=
  match p with
  | Ret r => match k r with Ret x => Ret x | Act m q => Act m q end
  | Act m q => Act (touch m) (fun x => on_token (q x) k)
  end.
(** cancellation_token.c:182 *)
Definition keep_token (r : res) : prog shared res :=
  match r with
  | Handle (Some registration) =>
    act* _ := take_field registration in
    Ret r
  | _ => Ret r
  end.
(** cancellation_token.c:51-60, and the registration's memory being given back by its THANDLE *)
Definition registration_dispose (registration : addr) : prog shared res :=
  act* target_handle := apart (get_target_handle registration) in
  act* _ := touch (unregister_target target_handle) in
  act* last := drop_field registration in
  if last : bool then
    act* _ := dispose_token in
    act* _ := apart (free_registration registration) in
    Ret Void
  else
    act* _ := apart (free_registration registration) in
    Ret Void.
(** The users' own references: THANDLE_INITIALIZE(CANCELLATION_TOKEN), THANDLE_ASSIGN(CANCELLATION_TOKEN) to NULL. *)
Definition copy_token : prog shared res :=
  act* _ := inc_ref in
  Ret Void.
Definition drop_token : prog shared res :=
  act* last := dec_ref in
  if last : bool then
    act* _ := dispose_token in
    Ret Void
  else Ret Void.

Inductive rop := Use (o : op) | Copy | Drop.
(** The references that a call needs, and those that its caller has when it is done. *)
Definition lent (o : rop) : nat :=
  match o with
  | Use (IsCanceled d) | Use (Register d _ _ _ _) | Use (Cancel d) => Nat.b2n d
  | Use (Dispose _) => 0
  | Copy | Drop => 1
  end.
Definition given (o : rop) : nat := match o with Copy => 2 | Drop => 0 | _ => lent o end.
Definition counted : system shared rop res := {|
  code := fun i o =>
    match o with
    | Use (Dispose r) => registration_dispose r
    | Use (Register d f c m1 m2) => on_token (cancellation_token_register_notify i d f c m1 m2) keep_token
    | Use (IsCanceled d) => on_token (cancellation_token_is_canceled d) Ret
    | Use (Cancel d) => on_token (cancellation_token_cancel i d) Ret
    | Copy => copy_token
    | Drop => drop_token
    end;
  calls := fun i o s =>
    if decide (lent o <= hands s) then
      match o with
      | Use o' => match calls token i o' (base s) with Some b => Some (set_hands (hands s - lent o) (set_base b s)) | None => None end
      | _ => Some (set_hands (hands s - lent o) s)
      end
    else None;
  returns := fun i o r s =>
    match o with
    | Use o' => set_hands (hands s + given o) (set_base (returns token i o' r (base s)) s)
    | _ => set_hands (hands s + given o) s
    end;
  env := fun _ _ => False;
|}.
(** cancellation_token.c:62-109: the creator has the only reference. *)
Definition created_token (b m1 m2 : bool) : option shared :=
  match cancellation_token_create b m1 m2 with Some t => Some (Shared t 1 false ∅ 1) | None => None end.
