(** TP_WORKER_THREAD (src/tp_worker_thread.c) used by any number of threads.
    Atomic actions: each interlocked function, each function of c_pal, the start and the end of each call of the worker function. Assumed of c_pal:
    - sm (a state machine that is closed or open, with calls executing): sm_open_begin is granted when it is closed, sm_exec_begin when it is open; sm_close_begin is granted when it is open, refuses further
      executions from then on, and returns when those granted before have ended;
    - threadpool: a work item once scheduled is run by some thread of the pool; giving up the pool waits until all scheduled items have run to their end; scheduling an item can fail;
    - InterlockedHL_WaitForNotValue: a loop that returns when it sees another value, and otherwise calls wait_on_address, which returns when woken, when the value is another one, or spuriously;
      it does not fail.
    Memory of the handle, its creation and destruction: see tp_worker_thread_create below; tp_worker_thread_destroy is in TpdModel.v. *)
From Verif Require Import Common Prog Conc.
Local Open Scope Z_scope.

(** The calls. [d]: whether the handle is given or NULL; [m1], [m2]: whether threadpool_create and threadpool_create_work_item succeed; [ok]: whether threadpool_schedule_work_item would succeed. *)
Inductive op :=
| Open (d m1 m2 : bool)
| Close (d : bool)
| Schedule (d ok : bool)
| Work.                                       (* the pool runs the scheduled work item *)
Inductive res := Int (r : Z) | Void | OK | INVALID_ARGS | INVALID_STATE.   (* Int 1 stands for MU_FAILURE *)
Inductive event :=
| Called (i : nat) (o : op)
| Returned (i : nat) (o : op) (r : res)
| Begins (i : nat)                            (* thread i calls the worker function with its context *)
| Ends (i : nat)
| Opens (i : nat)                             (* sm_open_end(true): from here on the worker thread is open *)
| Closes (i : nat)                            (* sm_close_begin granted: from here on it is not *)
| Fails (i : nat).                            (* threadpool_schedule_work_item has failed *)

Inductive smst := Closed | Opening | Opened | Closing.
Record tpw := Tpw {
  proc : Z;                                   (* processing_state: 0 IDLE, 1 EXECUTING, 2 SCHEDULE_REQUESTED *)
  waiters : list nat;                         (* the threads that wait on its address *)
  sm : smst; execs : nat;                     (* the state machine; the executions granted and not ended *)
  pool : bool; item : bool;                   (* threadpool and threadpool_work_item are not NULL *)
  pend : nat; busy : nat;                     (* the pool: work items scheduled and not started; being run *)
  lost : nat;                                 (* for the proofs: failed schedulings since the last open *)
  hist : list event;                          (* newest first *)
}.
Definition set_proc v s := Tpw v (waiters s) (sm s) (execs s) (pool s) (item s) (pend s) (busy s) (lost s) (hist s).
Definition set_waiters w s := Tpw (proc s) w (sm s) (execs s) (pool s) (item s) (pend s) (busy s) (lost s) (hist s).
Definition set_sm m e s := Tpw (proc s) (waiters s) m e (pool s) (item s) (pend s) (busy s) (lost s) (hist s).
Definition set_pool p t n s := Tpw (proc s) (waiters s) (sm s) (execs s) p t n (busy s) (lost s) (hist s).
Definition set_hist h s := Tpw (proc s) (waiters s) (sm s) (execs s) (pool s) (item s) (pend s) (busy s) (lost s) h.

Definition cas (new old : Z) : M tpw Z := fun s => Done (proc s, if proc s =? old then set_proc new s else s).            (* interlocked_compare_exchange *)
Definition reset_state : M tpw unit := fun s => Done (tt, Tpw 0 (waiters s) (sm s) (execs s) (pool s) (item s) (pend s) (busy s) 0 (hist s)).  (* interlocked_exchange(IDLE) *)
Definition load : M tpw Z := fun s => Done (proc s, s).
Definition wake_all : M tpw unit := fun s => Done (tt, set_waiters [] s).
Definition wait_start (i : nat) (v : Z) : M tpw unit := fun s => Done (tt, if proc s =? v then set_waiters (i :: waiters s) s else s).
Definition wait_end (i : nat) : M tpw unit := fun s => if decide (i ∈ waiters s) then NoFuel else Done (tt, s).

Definition sm_open_begin : M tpw bool := fun s => match sm s with Closed => Done (true, set_sm Opening (execs s) s) | _ => Done (false, s) end.
Definition sm_open_end (i : nat) (success : bool) : M tpw unit := fun s =>
  match sm s with Opening => Done (tt, if success then set_hist (Opens i :: hist s) (set_sm Opened (execs s) s) else set_sm Closed (execs s) s) | _ => Undef end.
Definition sm_close_begin (i : nat) : M tpw bool := fun s => match sm s with Opened => Done (true, set_hist (Closes i :: hist s) (set_sm Closing (execs s) s)) | _ => Done (false, s) end.
Definition sm_drain : M tpw unit := fun s => if decide (execs s = 0%nat) then Done (tt, s) else NoFuel.       (* the wait inside sm_close_begin *)
Definition sm_close_end : M tpw unit := fun s => match sm s with Closing => Done (tt, set_sm Closed (execs s) s) | _ => Undef end.
Definition sm_exec_begin : M tpw bool := fun s => match sm s with Opened => Done (true, set_sm Opened (S (execs s)) s) | _ => Done (false, s) end.
Definition sm_exec_end : M tpw unit := fun s => match execs s with S n => Done (tt, set_sm (sm s) n s) | O => Undef end.

Definition threadpool_create : M tpw unit := fun s => Done (tt, set_pool true (item s) 0 s).
Definition threadpool_create_work_item : M tpw unit := fun s => if pool s then Done (tt, set_pool true true (pend s) s) else Undef.
Definition drop_work_item : M tpw unit := fun s => Done (tt, set_pool (pool s) false (pend s) s).             (* THANDLE_ASSIGN(THREADPOOL_WORK_ITEM)(.., NULL) *)
Definition drop_threadpool : M tpw unit := fun s => if decide (pend s = 0%nat /\ busy s = 0%nat) then Done (tt, set_pool false (item s) 0 s) else NoFuel.   (* THANDLE_ASSIGN(THREADPOOL)(.., NULL) *)
Definition threadpool_schedule_work_item (i : nat) (ok : bool) : M tpw unit := fun s =>
  if pool s && item s then
    Done (tt, if ok then set_pool true true (S (pend s)) s else Tpw (proc s) (waiters s) (sm s) (execs s) true true (pend s) (busy s) (S (lost s)) (Fails i :: hist s))
  else Undef.
Definition begin_func (i : nat) : M tpw unit := fun s => Done (tt, set_hist (Begins i :: hist s) s).
Definition end_func (i : nat) : M tpw unit := fun s => Done (tt, set_hist (Ends i :: hist s) s).

(** tp_worker_thread.c:100-114 *)
Definition tp_worker_thread_close_internal (i : nat) : prog tpw res :=
  act* granted := sm_close_begin i in
  if granted : bool then
    act* _ := sm_drain in
    act* _ := drop_work_item in
    act* _ := drop_threadpool in
    act* _ := sm_close_end in
    Ret Void
  else Ret Void.
(** tp_worker_thread.c:246-258 *)
Definition tp_worker_thread_close (i : nat) (d : bool) : prog tpw res := if negb d then Ret Void else tp_worker_thread_close_internal i.
(** tp_worker_thread.c:176-244 *)
Definition tp_worker_thread_open (i : nat) (d m1 m2 : bool) : prog tpw res :=
  if negb d then Ret (Int 1)
  else
    act* granted := sm_open_begin in
    if negb granted then Ret (Int 1)
    else
      act* _ := reset_state in
      if negb m1 then                                           (* threadpool_create failed *)
        act* _ := sm_open_end i false in
        Ret (Int 1)
      else
        act* _ := threadpool_create in
        if negb m2 then                                         (* threadpool_create_work_item failed *)
          act* _ := drop_threadpool in
          act* _ := sm_open_end i false in
          Ret (Int 1)
        else
          act* _ := threadpool_create_work_item in
          act* _ := sm_open_end i true in
          Ret (Int 0).
(** tp_worker_thread.c:140-174: the loop *)
CoFixpoint tp_worker_on_threadpool_work (i : nat) : prog tpw res :=
  act* _ := begin_func i in
  act* _ := end_func i in
  act* old := cas 0 1 in
  if old =? 1 then
    act* _ := wake_all in
    Ret Void
  else
    act* current_processing_state := cas 1 2 in
    if current_processing_state =? 2 then
      act* _ := wake_all in
      tp_worker_on_threadpool_work i
    else tp_worker_on_threadpool_work i.
(** tp_worker_thread.c:285-314: the loop, with c_pal's InterlockedHL_WaitForNotValue (waiting_for: the value that is to change); then 316-318 *)
CoFixpoint schedule_loop (i : nat) (ok : bool) (waiting_for : option Z) : prog tpw res :=
  match waiting_for with
  | None =>
    act* current_processing_state := cas 2 1 in
    if (current_processing_state =? 1) || (current_processing_state =? 2) then
      act* _ := wake_all in
      act* _ := sm_exec_end in
      Ret OK
    else
      act* current_processing_state := cas 1 0 in
      if current_processing_state =? 0 then
        act* _ := wake_all in
        act* _ := threadpool_schedule_work_item i ok in         (* its result is not looked at *)
        act* _ := sm_exec_end in
        Ret OK
      else schedule_loop i ok (Some current_processing_state)
  | Some v =>
    act* current := load in
    if current =? v then
      act* _ := wait_start i v in
      act* _ := wait_end i in
      schedule_loop i ok (Some v)
    else schedule_loop i ok None
  end.
(** tp_worker_thread.c:260-323 *)
Definition tp_worker_thread_schedule_process (i : nat) (d ok : bool) : prog tpw res :=
  if negb d then Ret INVALID_ARGS
  else
    act* granted := sm_exec_begin in
    if negb granted then Ret INVALID_STATE
    else schedule_loop i ok None.

Definition worker : system tpw op res := {|
  code := fun i o => match o with
                     | Open d m1 m2 => tp_worker_thread_open i d m1 m2
                     | Close d => tp_worker_thread_close i d
                     | Schedule d ok => tp_worker_thread_schedule_process i d ok
                     | Work => tp_worker_on_threadpool_work i
                     end;
  calls := fun i o s =>
    match o with
    | Work => match pool s, pend s with true, S n => Some (Tpw (proc s) (waiters s) (sm s) (execs s) true (item s) n (S (busy s)) (lost s) (Called i o :: hist s)) | _, _ => None end
    | _ => Some (set_hist (Called i o :: hist s) s)
    end;
  returns := fun i o r s =>
    let s := set_hist (Returned i o r :: hist s) s in
    match o with Work => Tpw (proc s) (waiters s) (sm s) (execs s) (pool s) (item s) (pend s) (pred (busy s)) (lost s) (hist s) | _ => s end;
  env := fun s s' => exists w, w ⊆ waiters s /\ s' = set_waiters w s;                 (* spurious wake-ups *)
|}.
(** tp_worker_thread.c:43-98; e, f: whether execution_engine and worker_func are not NULL; m1, m2: whether malloc and sm_create succeed. None: NULL, with nothing left allocated. *)
Definition tp_worker_thread_create (e f m1 m2 : bool) : option tpw :=
  if negb e || negb f then None else if negb m1 then None else if negb m2 then None else Some (Tpw 0 [] Closed 0 false false 0 0 0 []).
