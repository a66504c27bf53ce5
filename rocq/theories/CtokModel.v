(** CANCELLATION_TOKEN (src/cancellation_token.c) used by any number of threads.
    Atomic actions: each interlocked function, each malloc and free, each access to a field of a registration, the start and the end of each call of a callback, and the calls of the TCALL_DISPATCHER,
    which act as C32 says: register and unregister act at one moment, at which no dispatch is running; a dispatch takes the targets one after the other, while the list cannot change.
    The callbacks do not register with, unregister from or dispose of the token they are called by. A registration is disposed of by the call that
    gives up its last reference, and the token outlives all calls: see CtrModel.v for its references. *)
From Verif Require Import Common Prog Conc.
Local Open Scope Z_scope.

Notation addr := nat.
(** A target of the dispatcher; tr: for the statements, the registration that it was registered for. *)
Record target := Target { th : addr; tr : addr; tf : Z; tc : Z }.
(** The calls. [d]: whether the token is given or NULL. Function 0 is NULL. [m1], [m2]: whether THANDLE_MALLOC and TCALL_DISPATCHER_REGISTER_TARGET succeed. *)
Inductive op :=
| IsCanceled (d : bool)
| Register (d : bool) (f c : Z) (m1 m2 : bool)
| Dispose (r : addr)                                           (* the last reference to a registration goes away *)
| Cancel (d : bool).
Inductive res := Bool (b : bool) | Handle (r : option addr) | Int (r : Z) | Void.   (* 1 stands for MU_FAILURE *)
Inductive event :=
| Called (i : nat) (o : op)
| Returned (i : nat) (o : op) (r : res)
| Begins (i : nat) (r : option addr) (f c : Z)                 (* thread i calls the callback f with context c: on behalf of registration r, or out of cancellation_token_register_notify itself *)
| Ends (i : nat) (r : option addr).

Record tok := Tok {
  canceled : bool;                       (* state: CANCELED, NOT_CANCELED *)
  targets : list target;                 (* the targets registered with the dispatcher, oldest first *)
  reading : option nat;                  (* the thread in which a dispatch is running *)
  blocks : gmap addr (option addr);      (* the registrations allocated; their cancel_notification_target_handle, if set *)
  fresh : addr;                          (* addresses from here on have not been used: addresses are not used again *)
  hist : list event;                     (* newest first *)
  regs : list target;                    (* the targets ever registered, oldest first *)
}.
Definition set_hist h s := Tok (canceled s) (targets s) (reading s) (blocks s) (fresh s) h (regs s).
Definition set_reading r s := Tok (canceled s) (targets s) r (blocks s) (fresh s) (hist s) (regs s).
Definition set_blocks b s := Tok (canceled s) (targets s) (reading s) b (fresh s) (hist s) (regs s).

Definition load_state : M tok bool := fun s => Done (canceled s, s).                       (* interlocked_add(&state, 0) *)
Definition cas_canceled : M tok bool := fun s =>                                           (* interlocked_compare_exchange(&state, CANCELED, NOT_CANCELED): the old value *)
  Done (canceled s, Tok true (targets s) (reading s) (blocks s) (fresh s) (hist s) (regs s)).
Definition malloc_registration : M tok addr := fun s => Done (fresh s, Tok (canceled s) (targets s) (reading s) (<[fresh s := None]> (blocks s)) (S (fresh s)) (hist s) (regs s)).
Definition free_registration (r : addr) : M tok unit := fun s => match blocks s !! r with Some _ => Done (tt, set_blocks (delete r (blocks s)) s) | None => Undef end.
Definition set_target_handle (r h : addr) : M tok unit := fun s => match blocks s !! r with Some _ => Done (tt, set_blocks (<[r := Some h]> (blocks s)) s) | None => Undef end.
Definition get_target_handle (r : addr) : M tok addr := fun s => match blocks s !! r with Some (Some h) => Done (h, s) | _ => Undef end.
(** TCALL_DISPATCHER_REGISTER_TARGET (r: see target), TCALL_DISPATCHER_UNREGISTER_TARGET: wait while a dispatch is running *)
Definition register_target (r : addr) (f c : Z) : M tok addr := fun s =>
  match reading s with
  | None => Done (fresh s, Tok (canceled s) (targets s ++ [Target (fresh s) r f c]) None (blocks s) (S (fresh s)) (hist s) (regs s ++ [Target (fresh s) r f c]))
  | Some _ => NoFuel
  end.
Definition unregister_target (h : addr) : M tok unit := fun s =>
  match reading s with
  | None => if decide (h ∈ th <$> targets s) then Done (tt, Tok (canceled s) (filter (fun t => th t ≠ h) (targets s)) None (blocks s) (fresh s) (hist s) (regs s)) else Undef
  | Some _ => NoFuel
  end.
(** TCALL_DISPATCHER_DISPATCH_CALL: it begins; it takes the n-th target; it ends. A second dispatch at the same time would be allowed; here it is an error, and C31 shows that there is none. *)
Definition dispatch_begin (i : nat) : M tok unit := fun s => match reading s with None => Done (tt, set_reading (Some i) s) | Some _ => Undef end.
Definition dispatch_nth (i n : nat) : M tok (option target) := fun s => if decide (reading s = Some i) then Done (targets s !! n, s) else Undef.
Definition dispatch_end (i : nat) : M tok unit := fun s => if decide (reading s = Some i) then Done (tt, set_reading None s) else Undef.
Definition begin_callback (i : nat) (r : option addr) (f c : Z) : M tok unit := fun s => Done (tt, set_hist (Begins i r f c :: hist s) s).
Definition end_callback (i : nat) (r : option addr) : M tok unit := fun s => Done (tt, set_hist (Ends i r :: hist s) s).

CoFixpoint dispatch_loop (i n : nat) : prog tok res :=
  act* t := dispatch_nth i n in
  match t with
  | Some t =>
    act* _ := begin_callback i (Some (tr t)) (tf t) (tc t) in
    act* _ := end_callback i (Some (tr t)) in
    dispatch_loop i (S n)
  | None =>
    act* _ := dispatch_end i in
    Ret (Int 0)
  end.

(** cancellation_token.c:111-138 *)
Definition cancellation_token_is_canceled (d : bool) : prog tok res :=
  if negb d then Ret (Bool false)
  else
    act* state := load_state in
    Ret (Bool state).
(** cancellation_token.c:140-196 *)
Definition cancellation_token_register_notify (i : nat) (d : bool) (on_cancel context : Z) (m1 m2 : bool) : prog tok res :=
  if negb d || (on_cancel =? 0) then Ret (Handle None)
  else
    act* state := load_state in
    if state : bool then
      act* _ := begin_callback i None on_cancel context in
      act* _ := end_callback i None in
      Ret (Handle None)
    else if negb m1 then Ret (Handle None)
    else
      act* registration := malloc_registration in
      if negb m2 then
        act* _ := free_registration registration in
        Ret (Handle None)
      else
        act* target_handle := register_target registration on_cancel context in
        act* _ := set_target_handle registration target_handle in
        Ret (Handle (Some registration)).
(** cancellation_token.c:51-60, and the registration's memory being given back by its THANDLE *)
Definition cancellation_token_registration_dispose (registration : addr) : prog tok res :=
  act* target_handle := get_target_handle registration in
  act* _ := unregister_target target_handle in
  act* _ := free_registration registration in
  Ret Void.
(** cancellation_token.c:198-231 *)
Definition cancellation_token_cancel (i : nat) (d : bool) : prog tok res :=
  if negb d then Ret (Int 1)
  else
    act* old := cas_canceled in
    if old : bool then Ret (Int 1)
    else
      act* _ := dispatch_begin i in
      dispatch_loop i 0.

(** The registrations in the hands of their users: returned by cancellation_token_register_notify and not yet disposed of. *)
Fixpoint handles (h : list event) : list addr :=
  match h with
  | [] => []
  | Returned _ (Register _ _ _ _ _) (Handle (Some r)) :: h => r :: handles h
  | Called _ (Dispose r) :: h => filter (.≠ r) (handles h)
  | _ :: h => handles h
  end.
(** A registration is disposed of once, by whoever holds it. *)
Definition may_call (o : op) (h : list event) : bool := match o with Dispose r => bool_decide (r ∈ handles h) | _ => true end.
Definition token : system tok op res := {|
  code := fun i o => match o with
                     | IsCanceled d => cancellation_token_is_canceled d
                     | Register d f c m1 m2 => cancellation_token_register_notify i d f c m1 m2
                     | Dispose r => cancellation_token_registration_dispose r
                     | Cancel d => cancellation_token_cancel i d
                     end;
  calls := fun i o s => if may_call o (hist s) then Some (set_hist (Called i o :: hist s) s) else None;
  returns := fun i o r s => set_hist (Returned i o r :: hist s) s;
  env := fun _ _ => False;
|}.
(** cancellation_token.c:62-109; m1, m2: whether THANDLE_MALLOC and TCALL_DISPATCHER_CREATE succeed. None: NULL is returned, and the token's memory has been given back. *)
Definition cancellation_token_create (b m1 m2 : bool) : option tok :=
  if negb m1 then None else if negb m2 then None else Some (Tok (if b then true else false) [] None ∅ 0 [] []).
