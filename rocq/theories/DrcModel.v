(** A TCALL_DISPATCHER (inc/c_util/tcall_dispatcher_ll.h) with its reference count, used by any number of threads. DispModel.v models the calls on a dispatcher that is disposed of at a moment when no call is running; here
    it is disposed of by the call that gives up the last reference (RefsModel.v), whenever that is. Only calls that are given the dispatcher appear here: those with NULL do not touch anything (C32). *)
From Verif Require Import Common Prog Conc DispModel RefsModel.

(** Whether a call is given the dispatcher. The dispose function is not called by users. *)
Definition given_dispatcher (o : op) : bool := match o with Register d _ _ _ | Unregister d _ | Dispatch d _ => d | Free => false end.
(** tcall_dispatcher_ll.h:100-122, with THANDLE_INITIALIZE and THANDLE_ASSIGN of the dispatcher's type *)
Definition counted_dispatcher : system (counted_state disp) (rop op) (option res) := counted dispatcher Free given_dispatcher.
(** tcall_dispatcher_ll.h:125-156: CREATE gives the only reference *)
Definition created_dispatcher : counted_state disp := made created.
