(** The references to the CANCELLATION_TOKEN_REGISTRATIONs of a CANCELLATION_TOKEN (src/cancellation_token.c), used by any number of threads. CtrModel.v models the calls on the token and the references to it, when
    each registration has one reference; HrefModel.v adds the references to the registrations: cancellation_token_register_notify returns the first one, users copy it and give copies up at any time, in any
    threads, and the call that gives up the last one disposes of the registration. *)
From Verif Require Import Common Prog Conc CtokModel CtrModel HrefModel.

(** cancellation_token.c:51-60: what THANDLE_ASSIGN(CANCELLATION_TOKEN_REGISTRATION) calls when the last reference has been given up *)
Definition dispose_call (r : addr) : CtrModel.rop := Use (Dispose r).
(** All calls but that one: it is not made by users. *)
Definition by_user (o : CtrModel.rop) : bool := match o with Use (Dispose _) => false | _ => true end.
(** cancellation_token.c:140-196: the registration that is returned *)
Definition new_registration (o : CtrModel.rop) (r : res) : option addr := match o, r with Use (Register _ _ _ _ _), Handle (Some x) => Some x | _, _ => None end.
Definition token_with_registrations : system (held_state shared) (hop CtrModel.rop) (option res) := shared_handles counted dispose_call by_user new_registration.
(** cancellation_token.c:62-109 *)
Definition token_created (b m1 m2 : bool) : option (held_state shared) := match created_token b m1 m2 with Some s => Some (unshared s) | None => None end.
