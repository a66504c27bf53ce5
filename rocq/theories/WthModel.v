(** WORKER_THREAD (src/worker_thread.c) used by any number of threads.
    Atomic actions: each interlocked function, each function of c_pal, the start and the end of each call of the worker function. Assumed of c_pal:
    - sm: as in TpwModel.v;
    - ThreadAPI_Create: starts a thread, at some time, or fails; ThreadAPI_Join waits until that thread has ended;
    - InterlockedHL_WaitForNotValue: a loop that returns when it sees another value, and otherwise calls wait_on_address, which returns when woken, when the value is another one, or spuriously; it does not fail;
    - wake_by_address_single wakes one of the threads that wait on the address (here the one that came last; in this code there is never more than one, WthProofs.i_wait).
    Memory of the handle: see worker_thread_create below; worker_thread_destroy is in WtdModel.v. *)
From Verif Require Import Common Prog Conc.
Local Open Scope Z_scope.

(** The calls. [d]: whether the handle is given or NULL; [m]: whether ThreadAPI_Create succeeds. *)
Inductive op := Open (d m : bool) | Close (d : bool) | Schedule (d : bool) | Worker.      (* Worker: the thread that has been created runs *)
Inductive res := Int (r : Z) | Void | OK | ERROR | INVALID_STATE.                         (* Int 1 stands for MU_FAILURE *)
Inductive event :=
| Called (i : nat) (o : op)
| Returned (i : nat) (o : op) (r : res)
| Begins (i : nat)                            (* thread i calls the worker function with its context *)
| Ends (i : nat)
| Opens (i : nat)                             (* sm_open_end(true): from here on the worker thread is open *)
| Closes (i : nat).                           (* sm_close_begin granted: from here on it is not *)

Inductive smst := Closed | Opening | Opened | Closing.
Record wth := Wth {
  state : Z;                                  (* 0 IDLE, 1 PROCESS_ITEM, 2 CLOSE *)
  waiters : list nat;                         (* the threads that wait on its address *)
  sm : smst; execs : nat;                     (* the state machine; the executions granted and not ended *)
  spawn : nat; alive : nat;                   (* the threads created and not started; started and not ended *)
  hist : list event;                          (* newest first *)
}.
Definition set_state v s := Wth v (waiters s) (sm s) (execs s) (spawn s) (alive s) (hist s).
Definition set_waiters w s := Wth (state s) w (sm s) (execs s) (spawn s) (alive s) (hist s).
Definition set_sm m e s := Wth (state s) (waiters s) m e (spawn s) (alive s) (hist s).
Definition set_spawn n s := Wth (state s) (waiters s) (sm s) (execs s) n (alive s) (hist s).
Definition set_hist h s := Wth (state s) (waiters s) (sm s) (execs s) (spawn s) (alive s) h.

Definition cas (new old : Z) : M wth Z := fun s => Done (state s, if state s =? old then set_state new s else s).   (* interlocked_compare_exchange *)
Definition exchange (v : Z) : M wth unit := fun s => Done (tt, set_state v s).
Definition load : M wth Z := fun s => Done (state s, s).                                                           (* interlocked_add(.., 0) *)
Definition wake_single : M wth unit := fun s => Done (tt, set_waiters (tail (waiters s)) s).
Definition wait_start (i : nat) (v : Z) : M wth unit := fun s => Done (tt, if state s =? v then set_waiters (i :: waiters s) s else s).
Definition wait_end (i : nat) : M wth unit := fun s => if decide (i ∈ waiters s) then NoFuel else Done (tt, s).

Definition sm_open_begin : M wth bool := fun s => match sm s with Closed => Done (true, set_sm Opening (execs s) s) | _ => Done (false, s) end.
Definition sm_open_end (i : nat) (success : bool) : M wth unit := fun s =>
  match sm s with Opening => Done (tt, if success then set_hist (Opens i :: hist s) (set_sm Opened (execs s) s) else set_sm Closed (execs s) s) | _ => Undef end.
Definition sm_close_begin (i : nat) : M wth bool := fun s => match sm s with Opened => Done (true, set_hist (Closes i :: hist s) (set_sm Closing (execs s) s)) | _ => Done (false, s) end.
Definition sm_drain : M wth unit := fun s => if decide (execs s = 0%nat) then Done (tt, s) else NoFuel.       (* the wait inside sm_close_begin *)
Definition sm_close_end : M wth unit := fun s => match sm s with Closing => Done (tt, set_sm Closed (execs s) s) | _ => Undef end.
Definition sm_exec_begin : M wth bool := fun s => match sm s with Opened => Done (true, set_sm Opened (S (execs s)) s) | _ => Done (false, s) end.
Definition sm_exec_end : M wth unit := fun s => match execs s with S n => Done (tt, set_sm (sm s) n s) | O => Undef end.

Definition thread_create : M wth unit := fun s => Done (tt, set_spawn (S (spawn s)) s).
Definition thread_join : M wth unit := fun s => if decide (spawn s = 0%nat /\ alive s = 0%nat) then Done (tt, s) else NoFuel.
Definition begin_func (i : nat) : M wth unit := fun s => Done (tt, set_hist (Begins i :: hist s) s).
Definition end_func (i : nat) : M wth unit := fun s => Done (tt, set_hist (Ends i :: hist s) s).

(** worker_thread.c:41-77, with c_pal's InterlockedHL_WaitForNotValue (waiting: inside it) *)
CoFixpoint worker_thread_func (i : nat) (waiting : bool) : prog wth res :=
  if waiting then
    act* current := load in
    if current =? 0 then
      act* _ := wait_start i 0 in
      act* _ := wait_end i in
      worker_thread_func i true
    else worker_thread_func i false
  else
    act* current_state := load in
    if current_state =? 0 then worker_thread_func i true
    else if current_state =? 1 then
      act* _ := cas 0 current_state in
      act* _ := begin_func i in
      act* _ := end_func i in
      worker_thread_func i false
    else Ret Void.
(** worker_thread.c:128-138; its caller worker_thread_close goes on with k *)
Definition internal_close (k : prog wth res) : prog wth res :=
  act* _ := exchange 2 in
  act* _ := wake_single in
  act* _ := thread_join in
  k.
(** worker_thread.c:166-208 *)
Definition worker_thread_open (i : nat) (d m : bool) : prog wth res :=
  if negb d then Ret (Int 1)
  else
    act* granted := sm_open_begin in
    if negb granted then Ret (Int 1)
    else
      act* _ := exchange 0 in
      if negb m then                                            (* ThreadAPI_Create failed *)
        act* _ := sm_open_end i false in
        Ret (Int 1)
      else
        act* _ := thread_create in
        act* _ := sm_open_end i true in
        Ret (Int 0).
(** worker_thread.c:210-234 *)
Definition worker_thread_close (i : nat) (d : bool) : prog wth res :=
  if negb d then Ret Void
  else
    act* granted := sm_close_begin i in
    if granted : bool then
      act* _ := sm_drain in
      internal_close (act* _ := sm_close_end in Ret Void)
    else Ret Void.
(** worker_thread.c:236-281 *)
Definition worker_thread_schedule_process (i : nat) (d : bool) : prog wth res :=
  if negb d then Ret ERROR
  else
    act* granted := sm_exec_begin in
    if negb granted then Ret INVALID_STATE
    else
      act* worker_thread_state := cas 1 0 in
      if negb (worker_thread_state =? 0) && negb (worker_thread_state =? 1) then
        act* _ := sm_exec_end in
        Ret INVALID_STATE
      else
        act* _ := wake_single in
        act* _ := sm_exec_end in
        Ret OK.

Definition worker : system wth op res := {|
  code := fun i o => match o with
                     | Open d m => worker_thread_open i d m
                     | Close d => worker_thread_close i d
                     | Schedule d => worker_thread_schedule_process i d
                     | Worker => worker_thread_func i false
                     end;
  calls := fun i o s =>
    match o with
    | Worker => match spawn s with S n => Some (Wth (state s) (waiters s) (sm s) (execs s) n (S (alive s)) (Called i o :: hist s)) | _ => None end
    | _ => Some (set_hist (Called i o :: hist s) s)
    end;
  returns := fun i o r s =>
    let s := set_hist (Returned i o r :: hist s) s in
    match o with Worker => Wth (state s) (waiters s) (sm s) (execs s) (spawn s) (pred (alive s)) (hist s) | _ => s end;
  env := fun s s' => exists w, w `sublist_of` waiters s /\ s' = set_waiters w s;       (* spurious wake-ups *)
|}.
(** worker_thread.c:79-126; f: whether worker_func is not NULL; m1, m2: whether malloc and sm_create succeed. None: NULL, with nothing left allocated. *)
Definition worker_thread_create (f m1 m2 : bool) : option wth :=
  if negb f then None else if negb m1 then None else if negb m2 then None else Some (Wth 0 [] Closed 0 0 0 []).
