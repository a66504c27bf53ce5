(** async_op_cancel (src/async_op.c:137-168), called by any number of threads on the same operation. The operation's own fields other than cancel_state do not change once it is created. *)
From Verif Require Import Common Prog Conc.
Local Open Scope Z_scope.

(** inc/c_util/async_op.h:25-30; MU_DEFINE_ENUM counts from 1 or 0, but only equality matters. *)
Definition ASYNC_RUNNING : Z := 0.
Definition ASYNC_CANCELLING : Z := 1.
Definition ASYNC_INVALID_ARG : Z := 2.

Record async_op := AsyncOp {
  cancel_state : Z;
  (* what has happened, for the statements: *)
  cancelled : list Z;                 (* the contexts with which the cancel function has been called *)
  results : list (nat * bool * Z);    (* the calls that have returned, with what they returned *)
}.
(** c_pal: returns the old value. *)
Definition interlocked_compare_exchange (new old : Z) : M async_op Z :=
  fun s => Done (cancel_state s, if cancel_state s =? old then AsyncOp new (cancelled s) (results s) else s).
(** The cancel function supplied by the user. *)
Definition call_cancel (context : Z) : M async_op unit := fun s => Done (tt, AsyncOp (cancel_state s) (context :: cancelled s) (results s)).

Section op.
(** The fields of the operation: context and cancel, which may be NULL. *)
Context (context : Z) (has_cancel : bool).
(** async_op.c:137-168. [nonnull]: whether the argument is the operation or NULL. *)
Definition async_op_cancel (nonnull : bool) : prog async_op Z :=
  if negb nonnull then Ret ASYNC_INVALID_ARG                                        (* 141-145 *)
  else
    act* result := interlocked_compare_exchange ASYNC_CANCELLING ASYNC_RUNNING in   (* 149 *)
    if result =? ASYNC_RUNNING then
      if has_cancel then act* _ := call_cancel context in Ret ASYNC_CANCELLING      (* 152-158 *)
      else Ret ASYNC_CANCELLING
    else Ret result.                                                                (* 160-163 *)

Definition cancels : system async_op bool Z := {|
  code := fun _ o => async_op_cancel o;
  calls := fun _ _ s => Some s;
  returns := fun i o r s => AsyncOp (cancel_state s) (cancelled s) ((i, o, r) :: results s);
  env := fun _ _ => False;
|}.
End op.
(** The state set by async_op_create: async_op.c:128 *)
Definition created_op : async_op := AsyncOp ASYNC_RUNNING [] [].
