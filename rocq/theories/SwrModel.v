(** The synchronous wrapper that inc/c_util/sync_wrapper.h generates for an asynchronous function, used with any number of threads. One call of the wrapper is modelled, with the callback that follows from it: calls share nothing (each has its own context,
    in its stack frame). Atomic actions: each call of a function outside of this code, each access to the context. Assumed of these:
    - the asynchronous function: if it answers with the value that it is expected to answer, then the callback that it was given is called once, with the context that it was given, at any time from then on, also before it returns; else never;
    - InterlockedHL_WaitForValue(&v, 1, UINT32_MAX) (c-pal) answers INTERLOCKED_HL_OK only when v is 1, and waits while it is not; it may also fail at any time, if [may_fail];
    - InterlockedHL_SetAndWake(&v, 1) (c-pal) sets v, then wakes the waiting thread: by the address of v only, v itself is not accessed then; what it answers is only logged.
    What functions answer is not known: it is [choice s], which changes to any value at any time. *)
From Verif Require Import Common Prog Conc.
Local Open Scope Z_scope.

(** What the user gives to the macros: expected_return, and for each of the OUT_ARGs whether it has a copy and a free function (else it is assigned). *)
Record config := Config { expected_return : Z; custom : list bool; may_fail : bool }.
(** sync_wrapper.h:204-210; None: never written; the pointers to the out arguments are not shown, they do not change *)
Record context := Ctx { complete : Z; error : option bool }.

Inductive result := OK | INVALID_ARGS | CALL_ERROR | COPY_ARG_ERROR | OTHER_ERROR.
(** The calls: of the wrapper (whether the handle, the pointer for the result and those for the out arguments are not NULL), of the callback (with the values of the out arguments). *)
Inductive op := Sync (handle res : bool) (ptrs : list bool) | Callback (vals : list Z).
(** What the wrapper answers, and what it has stored in *async_function_call_result, if anything *)
Inductive res := Void | Answer (r : result) (stored : option Z).
Inductive event :=
| Called (i : nat) (o : op)
| Returned (i : nat) (o : op) (r : res)
| Attempt (r : Z)                                              (* the asynchronous function was called, and answered r *)
| Assigned (k : nat) (v : Z)                                   (* out argument k *)
| Copied (k : nat) (v : Z) | NotCopied (k : nat) | Freed (k : nat)   (* the copy and free functions for out argument k *)
| Woke.

Record st := St {
  frame : option context;         (* the context, in the stack frame of the wrapper *)
  inflight : nat;                 (* callbacks that will be called *)
  started : bool;                 (* the wrapper has been called *)
  choice : Z;
  hist : list event }.            (* newest first *)
Definition upd (s : st) (c : option context) (es : list event) : st := St c (inflight s) (started s) (choice s) (es ++ hist s).

(** (void)interlocked_exchange(&async_call_context.complete, 0), at the start of the block where the context is declared: sync_wrapper.h:272-273 *)
Definition enter : M st unit := fun s => Done (tt, upd s (Some (Ctx 0 None)) []).
(** async_function_name(async_handle, ..., on_complete, &async_call_context) *)
Definition async_function (C : config) : M st Z := fun s =>
  Done (choice s, St (frame s) (if choice s =? expected_return C then S (inflight s) else inflight s) (started s) (choice s) (Attempt (choice s) :: hist s)).
(** InterlockedHL_WaitForValue(&async_call_context.complete, 1, UINT32_MAX) *)
Definition wait_complete (C : config) : M st bool := fun s =>
  match frame s with
  | None => Undef
  | Some c => if complete c =? 1 then Done (true, s) else if may_fail C && (choice s =? 1) then Done (false, s) else NoFuel
  end.
(** async_call_context->error_copying_out_args *)
Definition get_error : M st bool := fun s => match frame s with Some (Ctx _ (Some e)) => Done (e, s) | _ => Undef end.
Definition set_error (e : bool) : M st unit := fun s => match frame s with Some c => Done (tt, upd s (Some (Ctx (complete c) (Some e))) []) | None => Undef end.
(** *async_call_context->arg_name = arg_name *)
Definition assign_out (k : nat) (v : Z) : M st unit := fun s => match frame s with Some _ => Done (tt, upd s (frame s) [Assigned k v]) | None => Undef end.
(** copy_function(async_call_context->arg_name, arg_name); free_function( *async_call_context->arg_name) *)
Definition copy_out (k : nat) (v : Z) : M st bool := fun s =>
  match frame s with Some _ => if choice s =? 0 then Done (true, upd s (frame s) [Copied k v]) else Done (false, upd s (frame s) [NotCopied k]) | None => Undef end.
Definition free_out (k : nat) : M st unit := fun s => match frame s with Some _ => Done (tt, upd s (frame s) [Freed k]) | None => Undef end.
(** InterlockedHL_SetAndWake(&async_call_context->complete, 1): two actions *)
Definition set_complete : M st unit := fun s => match frame s with Some c => Done (tt, upd s (Some (Ctx 1 (error c))) []) | None => Undef end.
Definition wake : M st unit := fun s => Done (tt, upd s (frame s) [Woke]).

(** sync_wrapper.h:103-142 SYNC_WRAPPER_COPY_CALLBACK_OUT_ARGS; k is given for each argument whether it needs to be freed. *)
Fixpoint copy_outs (l : list bool) (vals : list Z) (n : nat) (need : list bool) (k : list bool -> prog st res) : prog st res :=
  match l, vals with
  | true :: l, v :: vals =>
    act* e := get_error in
    if negb e then
      act* ok := copy_out n v in
      if negb ok then
        act* _ := set_error true in
        copy_outs l vals (S n) (need ++ [false]) k
      else copy_outs l vals (S n) (need ++ [true]) k
    else copy_outs l vals (S n) (need ++ [false]) k
  | false :: l, v :: vals =>
    act* _ := assign_out n v in
    copy_outs l vals (S n) (need ++ [false]) k
  | _, _ => k need
  end.
(** sync_wrapper.h:144-166 SYNC_WRAPPER_FREE_FAILED_CALLBACK_OUT_ARGS *)
Fixpoint free_failed (l need : list bool) (n : nat) (k : prog st res) : prog st res :=
  match l, need with
  | true :: l, nd :: need =>
    act* e := get_error in
    if e && nd then act* _ := free_out n in free_failed l need (S n) k else free_failed l need (S n) k
  | false :: l, _ :: need => free_failed l need (S n) k
  | _, _ => k
  end.
(** sync_wrapper.h:217-235 the callback *)
Definition on_complete (C : config) (vals : list Z) : prog st res :=
  act* _ := set_error false in
  copy_outs (custom C) vals 0 [] (fun need =>
  free_failed (custom C) need 0 (
  act* _ := set_complete in
  act* _ := wake in
  Ret Void)).

(** sync_wrapper.h:255-303 the wrapper *)
Definition wrapper (C : config) (handle res : bool) (ptrs : list bool) : prog st SwrModel.res :=
  if negb handle then Ret (Answer INVALID_ARGS None)
  else if negb res then Ret (Answer INVALID_ARGS None)
  else if negb (forallb id ptrs) then Ret (Answer INVALID_ARGS None)
  else
    act* _ := enter in
    act* r := async_function C in
    if negb (r =? expected_return C) then Ret (Answer CALL_ERROR (Some r))
    else
      act* ok := wait_complete C in
      if negb ok then Ret (Answer OTHER_ERROR (Some r))
      else
        act* e := get_error in
        if e : bool then Ret (Answer COPY_ARG_ERROR (Some r)) else Ret (Answer OK (Some r)).

(** The context is gone when the wrapper returns. *)
Definition sync_wrapper (C : config) : system st op res := {|
  code := fun i o => match o with Sync h r ps => wrapper C h r ps | Callback vals => on_complete C vals end;
  calls := fun i o s =>
    match o with
    | Sync h r ps => if started s then None else if decide (length ps = length (custom C)) then Some (St (frame s) (inflight s) true (choice s) (Called i o :: hist s)) else None
    | Callback vals => match inflight s with S n => if decide (length vals = length (custom C)) then Some (St (frame s) n (started s) (choice s) (Called i o :: hist s)) else None | O => None end
    end;
  returns := fun i o r s => St (match o with Sync _ _ _ => None | Callback _ => frame s end) (inflight s) (started s) (choice s) (Returned i o r :: hist s);
  env := fun s s' => exists c, s' = St (frame s) (inflight s) (started s) c (hist s);
|}.
Definition start : st := St None 0 false 0 [].
