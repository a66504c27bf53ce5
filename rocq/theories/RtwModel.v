(** The asynchronous retry wrapper that inc/c_util/async_retry_wrapper.h generates for a function, used with any number of threads: those that call the wrapper, those that complete the asynchronous calls, those of the threadpool.
    One call of the wrapper is modelled, with all that follows from it: calls share nothing (each has its own context).
    Atomic actions: each call of a function outside of this code, each access to the context. Assumed of these:
    - the asynchronous function: if it answers with the value that it is expected to answer, then the callback that it was given is called once, at any time from then on, also before it returns and in the same thread; else it is never called;
    - threadpool_schedule_work: if it answers 0 then the work function runs once, at some time, in some thread; else it never runs;
    - the clock (timer_global_get_elapsed_ms) is read in nanoseconds and the differences of readings are exact (the code has doubles, in milliseconds).
    What these functions answer is not known: it is [choice s], which changes to any value at any time. *)
From Verif Require Import Common Prog Conc.
Local Open Scope Z_scope.

(** What the user gives to the macros: expected_return, RETRY_ON_SYNC(...), for each argument in IN_ARGS(...) other than the callback and its context whether it has a copy and a free function, which of the OUT_ARGS(...) is the ENUM,
    RETRY_ON_ASYNC(...), and the values that the OUT_ARGS(...) have on an error and on a timeout. *)
Record config := Config {
  expected_return : Z; retry_sync : list Z;
  custom : list bool;
  enum : nat; retry_async : list Z; error_values : list Z; timeout_values : list Z }.

(** async_retry_wrapper.h:79-88; held: the copies of arguments that have a free function; the user's callback, its context and the handle are not shown, they do not change *)
Record context := Ctx { start_time : Z; timeout_ms : Z; backoff : Z; held : list nat; threadpool : bool }.

Inductive result := OK | INVALID_ARGS | ERROR | COPY_ARG_ERROR | TIMEOUT | CALL_ERROR.
(** The calls: of the wrapper (whether the handle, the pointer for the result, the threadpool and the callback are not NULL; the timeout, UINT32_MAX: none), of the callback given to the asynchronous function (with the values of OUT_ARGS), of the function
    given to the threadpool. *)
Inductive op := Wrap (handle res pool cb : bool) (timeout : Z) | Complete (outs : list Z) | Retry.
(** What the wrapper answers, and what it has stored in *async_function_result, if anything *)
Inductive res := Void | Answer (r : result) (stored : option Z).
Inductive event :=
| Called (i : nat) (o : op)
| Returned (i : nat) (o : op) (r : res)
| NoMemory | Allocated | FreedContext
| Copied (k : nat) | NotCopied (k : nat) | Freed (k : nat)      (* the copy or free function of argument k *)
| Read (t : Z)                                                   (* the clock *)
| Attempt (i : nat) (r : Z)                                      (* thread i called the asynchronous function, which answered r *)
| Slept (b : Z)
| Scheduled | NotScheduled
| User (args : list Z).                                          (* the user's callback *)

Record st := St {
  ctx : option context;           (* the memory of the context *)
  inflight : nat;                 (* callbacks that will be called *)
  work : nat;                     (* work functions that will run *)
  refs : nat;                     (* references to the threadpool held *)
  started : bool;                 (* the wrapper has been called *)
  choice : Z;
  hist : list event }.            (* newest first *)
Definition upd (s : st) (c : option context) (r : nat) (es : list event) : st := St c (inflight s) (work s) r (started s) (choice s) (es ++ hist s).

(** malloc *)
Definition malloc : M st bool := fun s => if choice s =? 0 then Done (false, upd s (ctx s) (refs s) [NoMemory]) else Done (true, upd s (Some (Ctx 0 0 0 [] false)) (refs s) [Allocated]).
Definition free_context : M st unit := fun s => match ctx s with None => Undef | Some _ => Done (tt, upd s None (refs s) [FreedContext]) end.
Definition get_elapsed : M st Z := fun s => Done (choice s, upd s (ctx s) (refs s) [Read (choice s)]).
Definition get_context : M st context := fun s => match ctx s with None => Undef | Some c => Done (c, s) end.
Definition set_context (f : context -> context) : M st unit := fun s => match ctx s with None => Undef | Some c => Done (tt, upd s (Some (f c)) (refs s) []) end.
(** The copy and free functions of argument k *)
Definition copy_arg (k : nat) : M st bool := fun s =>
  match ctx s with
  | None => Undef
  | Some c => if choice s =? 0 then Done (true, upd s (Some (Ctx (start_time c) (timeout_ms c) (backoff c) (held c ++ [k]) (threadpool c))) (refs s) [Copied k]) else Done (false, upd s (ctx s) (refs s) [NotCopied k])
  end.
Definition free_arg (k : nat) : M st unit := fun s =>
  match ctx s with
  | None => Undef
  | Some c => if decide (k ∈ held c) then Done (tt, upd s (Some (Ctx (start_time c) (timeout_ms c) (backoff c) (filter (.≠ k) (held c)) (threadpool c))) (refs s) [Freed k]) else Undef
  end.
(** THANDLE_INITIALIZE(THREADPOOL)(&retry_context->threadpool, threadpool), THANDLE_ASSIGN(THREADPOOL)(&retry_context->threadpool, NULL) *)
Definition init_pool : M st unit := fun s =>
  match ctx s with None => Undef | Some c => Done (tt, upd s (Some (Ctx (start_time c) (timeout_ms c) (backoff c) (held c) true)) (S (refs s)) []) end.
Definition release_pool : M st unit := fun s =>
  match ctx s with None => Undef | Some c => Done (tt, upd s (Some (Ctx (start_time c) (timeout_ms c) (backoff c) (held c) false)) (if threadpool c then pred (refs s) else refs s) []) end.
(** async_function_name(retry_context->handle, ..., callback, retry_context) *)
Definition async_function (C : config) (i : nat) : M st Z := fun s =>
  match ctx s with
  | None => Undef
  | Some _ => Done (choice s, St (ctx s) (if choice s =? expected_return C then S (inflight s) else inflight s) (work s) (refs s) (started s) (choice s) (Attempt i (choice s) :: hist s))
  end.
Definition sleep (b : Z) : M st unit := fun s => Done (tt, upd s (ctx s) (refs s) [Slept b]).
(** threadpool_schedule_work(retry_context->threadpool, do_retry, retry_context): whether it answers 0 *)
Definition schedule_work : M st bool := fun s =>
  match ctx s with
  | None => Undef
  | Some c => if threadpool c then if choice s =? 0 then Done (true, St (ctx s) (inflight s) (S (work s)) (refs s) (started s) (choice s) (Scheduled :: hist s)) else Done (false, upd s (ctx s) (refs s) [NotScheduled]) else Undef
  end.
(** retry_context->user_captured_callback(retry_context->user_captured_callback_context, args) *)
Definition user_callback (args : list Z) : M st unit := fun s => match ctx s with None => Undef | Some _ => Done (tt, upd s (ctx s) (refs s) [User args]) end.

(** async_retry_wrapper.h:47 *)
Definition MAX_BACKOFF : Z := 10000.
(** async_retry_wrapper.h:416-420, 606-610 *)
Definition next_backoff (b : Z) : Z := let b := u32 (b * 2) in if b >? MAX_BACKOFF then MAX_BACKOFF else b.
(** elapsed_time_ms + retry_context->backoff > retry_context->timeout_ms, with now in nanoseconds *)
Definition too_late (now : Z) (c : context) : bool := (now - start_time c) + backoff c * 1000000 >? timeout_ms c * 1000000.

(** async_retry_wrapper.h:394-423 and 585-613: the loop; then k with whether it timed out and the latest answer *)
CoFixpoint attempts (C : config) (i : nat) (k : bool -> Z -> prog st res) : prog st res :=
  act* r := async_function C i in
  if decide (r ∈ retry_sync C) then
    act* c := get_context in
    if timeout_ms c <? UINT32_MAX then
      act* now := get_elapsed in
      if too_late now c then k true r
      else
        act* _ := sleep (backoff c) in
        act* _ := set_context (fun c => Ctx (start_time c) (timeout_ms c) (next_backoff (backoff c)) (held c) (threadpool c)) in
        attempts C i k
    else
      act* _ := sleep (backoff c) in
      act* _ := set_context (fun c => Ctx (start_time c) (timeout_ms c) (next_backoff (backoff c)) (held c) (threadpool c)) in
      attempts C i k
  else k false r.

(** async_retry_wrapper.h:361-378 ASYNC_RETRY_WRAPPER_FREE_FIELDS: each argument, from number n, that has a free function *)
Fixpoint free_fields (l : list bool) (n : nat) (k : prog st res) : prog st res :=
  match l with
  | [] => k
  | true :: l => act* _ := free_arg n in free_fields l (S n) k
  | false :: l => free_fields l (S n) k
  end.
(** async_retry_wrapper.h:274-332 ASYNC_RETRY_WRAPPER_COPY_ARGS: k is given whether a copy failed, and for each argument whether it needs to be freed (arguments without a copy function are assigned). *)
Fixpoint copy_args (l : list bool) (n : nat) (error : bool) (need : list bool) (k : bool -> list bool -> prog st res) : prog st res :=
  match l with
  | [] => k error need
  | true :: l =>
    if error then copy_args l (S n) error (need ++ [false]) k
    else act* ok := copy_arg n in
         if ok : bool then copy_args l (S n) error (need ++ [true]) k else copy_args l (S n) true (need ++ [false]) k
  | false :: l => copy_args l (S n) error (need ++ [false]) k
  end.
(** async_retry_wrapper.h:335-356 ASYNC_RETRY_WRAPPER_FREE_FAILED: each argument that needs to be freed *)
Notation free_failed := free_fields.

(** The end of what follows from a call of the wrapper: async_retry_wrapper.h:428-433, 442-447, 488-493, 504-509, 520-525 *)
Definition finish (C : config) (args : list Z) : prog st res :=
  act* _ := user_callback args in
  free_fields (custom C) 0 (
  act* _ := release_pool in
  act* _ := free_context in
  Ret Void).

(** async_retry_wrapper.h:383-455 do_retry *)
Definition do_retry (C : config) (i : nat) : prog st res :=
  attempts C i (fun timed_out r =>
    if timed_out then finish C (timeout_values C)
    else if r =? expected_return C then Ret Void
    else finish C (error_values C)).

(** ASYNC_RETRY_WRAPPER_RETRY_CONDITIONS_PROXY(retry_async_enums), async_retry_wrapper.h:164-176 *)
Definition retries (C : config) (outs : list Z) : bool := match outs !! enum C with Some v => bool_decide (v ∈ retry_async C) | None => false end.
(** async_retry_wrapper.h:463-528 the callback *)
Definition on_complete (C : config) (outs : list Z) : prog st res :=
  let schedule :=
    act* ok := schedule_work in
    if ok : bool then Ret Void else finish C (error_values C) in
  if retries C outs then
    act* c := get_context in
    if timeout_ms c <? UINT32_MAX then
      act* now := get_elapsed in
      if too_late now c then finish C (timeout_values C) else schedule
    else schedule
  else finish C outs.

(** async_retry_wrapper.h:636-637 *)
Definition give_up (need : list bool) (r : result) (stored : option Z) : prog st res :=
  free_failed need 0 (
  act* _ := free_context in
  Ret (Answer r stored)).
(** async_retry_wrapper.h:532-642 the wrapper *)
Definition wrapper (C : config) (i : nat) (handle res pool cb : bool) (timeout : Z) : prog st RtwModel.res :=
  if negb handle then Ret (Answer INVALID_ARGS None)
  else if negb res then Ret (Answer INVALID_ARGS None)
  else if negb pool then Ret (Answer INVALID_ARGS None)
  else if negb cb then Ret (Answer INVALID_ARGS None)
  else
    act* ok := malloc in
    if negb ok then Ret (Answer ERROR None)
    else
      let rest :=
        act* _ := set_context (fun c => Ctx (start_time c) timeout (backoff c) (held c) (threadpool c)) in
        copy_args (custom C) 0 false [] (fun error need =>
        if error then give_up need COPY_ARG_ERROR None
        else
          act* _ := init_pool in
          act* _ := set_context (fun c => Ctx (start_time c) (timeout_ms c) 1 (held c) (threadpool c)) in
          attempts C i (fun timed_out r =>
          if timed_out then act* _ := release_pool in give_up need TIMEOUT (Some r)
          else if r =? expected_return C then Ret (Answer OK (Some r))
          else act* _ := release_pool in give_up need CALL_ERROR (Some r))) in
      if timeout <? UINT32_MAX then
        act* t := get_elapsed in
        act* _ := set_context (fun c => Ctx t (timeout_ms c) (backoff c) (held c) (threadpool c)) in
        rest
      else rest.

Definition retry_wrapper (C : config) : system st op res := {|
  code := fun i o => match o with Wrap h r p c t => wrapper C i h r p c t | Complete outs => on_complete C outs | Retry => do_retry C i end;
  calls := fun i o s =>
    match o with
    | Wrap h r p c t => if started s then None else if bool_decide (0 <= t <= UINT32_MAX) then Some (St (ctx s) (inflight s) (work s) (refs s) true (choice s) (Called i o :: hist s)) else None
    | Complete _ => match inflight s with S n => Some (St (ctx s) n (work s) (refs s) (started s) (choice s) (Called i o :: hist s)) | O => None end
    | Retry => match work s with S n => Some (St (ctx s) (inflight s) n (refs s) (started s) (choice s) (Called i o :: hist s)) | O => None end
    end;
  returns := fun i o r s => St (ctx s) (inflight s) (work s) (refs s) (started s) (choice s) (Returned i o r :: hist s);
  env := fun s s' => exists c, s' = St (ctx s) (inflight s) (work s) (refs s) (started s) c (hist s);
|}.
Definition start : st := St None 0 0 0 false 0 [].
