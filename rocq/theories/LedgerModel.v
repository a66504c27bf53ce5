(** Creating and destroying the objects that own locks and state machines, when any of the steps may fail: src/channel.c, src/sliding_window_average_by_count.c, src/worker_thread.c, src/tp_worker_thread.c,
    src/cancellation_token.c (with TCALL_DISPATCHER_CREATE of inc/c_util/tcall_dispatcher_ll.h), inc/c_util/tarray_ll.h. What is modelled: the memory, state machines (sm, c-pal) and locks (srw_lock, srw_lock_ll, c-pal) that exist, where the
    objects keep them, and the references to other objects (threadpools, log contexts, execution engines) that they hold. Fields that do not hold such things are left out; objects are destroyed when closed, and THANDLEs by
    giving up the only reference. One thread: other threads have no access to an object that is being created or destroyed. *)
From Verif Require Import Common.
Local Open Scope Z_scope.
Local Open Scope cmonad_scope.

Inductive rkind := Mem | Sm | Lock.                    (* a block of memory, a state machine, a lock *)
Global Instance rkind_eq : EqDecision rkind.
Proof. solve_decision. Defined.
Notation id := nat.
(** What a block of memory contains. *)
Inductive obj :=
| OChannel (sm lock : id) (threadpool log_context : option nat)      (* channel.c:32-40 *)
| OWindow (lock : id)                                                (* sliding_window_average_by_count.c:14-23 *)
| OWorker (sm : id)                                                  (* worker_thread.c:23-31 *)
| OTpWorker (sm : id) (execution_engine : nat)                       (* tp_worker_thread.c:30-39 *)
| OToken (dispatcher : id)                                           (* cancellation_token.c:29-33 *)
| ODispatcher (lock : id)                                            (* tcall_dispatcher_ll.h:45-49 *)
| OTArray (arr : id).                                                (* tarray_ll.h:35-41 *)
Record ledger := Ledger {
  next : id;                      (* numbers from here on have not been used *)
  live : gmap id rkind;           (* what exists *)
  objs : gmap id obj;             (* what is in the blocks of memory *)
  refs : nat -> nat;              (* the reference counts of the objects of others *)
}.
Notation L := (M ledger).
(** malloc, malloc_2, THANDLE_MALLOC, sm_create, srw_lock_create, srw_lock_ll_init; [ok]: whether it succeeds *)
Definition acquire (k : rkind) (ok : bool) : L (option id) := fun s =>
  if ok then Done (Some (next s), Ledger (S (next s)) (<[next s := k]> (live s)) (objs s) (refs s)) else Done (None, s).
(** free, THANDLE_FREE, sm_destroy, srw_lock_destroy, srw_lock_ll_deinit *)
Definition release (k : rkind) (i : id) : L unit := fun s =>
  if decide (live s !! i = Some k) then Done (tt, Ledger (next s) (delete i (live s)) (match k with Mem => delete i (objs s) | _ => objs s end) (refs s)) else Undef.
Definition store (i : id) (o : obj) : L unit := fun s => if decide (live s !! i = Some Mem) then Done (tt, Ledger (next s) (live s) (<[i := o]> (objs s)) (refs s)) else Undef.
Definition load (i : id) : L obj := fun s => if decide (live s !! i = Some Mem) then match objs s !! i with Some o => Done (o, s) | None => Undef end else Undef.
(** THANDLE_INITIALIZE, execution_engine_inc_ref; THANDLE_ASSIGN(NULL), execution_engine_dec_ref *)
Definition inc_ref (r : option nat) : L unit := fun s =>
  match r with Some r => Done (tt, Ledger (next s) (live s) (objs s) (fun x => if decide (x = r) then S (refs s x) else refs s x)) | None => Done (tt, s) end.
Definition dec_ref (r : option nat) : L unit := fun s =>
  match r with
  | Some r => match refs s r with 0%nat => Undef | S _ => Done (tt, Ledger (next s) (live s) (objs s) (fun x => if decide (x = r) then pred (refs s x) else refs s x)) end
  | None => Done (tt, s)
  end.

(** channel.c:149-204; b1, b2, b3: whether its steps succeed, in order *)
Definition channel_create (log_context threadpool : option nat) (b1 b2 b3 : bool) : L (option id) :=
  let* sm := acquire Sm b1 in
  match sm with
  | None => ret None
  | Some sm =>
    let* lock := acquire Lock b2 in
    match lock with
    | None => release Sm sm ;;; ret None
    | Some lock =>
      let* channel := acquire Mem b3 in
      match channel with
      | None => release Lock lock ;;; release Sm sm ;;; ret None
      | Some channel =>
        inc_ref threadpool ;;; inc_ref log_context ;;;
        store channel (OChannel sm lock threadpool log_context) ;;;
        ret (Some channel)
      end
    end
  end.
(** channel.c:65-78, and the memory is freed *)
Definition channel_dispose (channel : id) : L unit :=
  let* o := load channel in
  match o with
  | OChannel sm lock threadpool log_context => dec_ref log_context ;;; dec_ref threadpool ;;; release Lock lock ;;; release Sm sm ;;; release Mem channel
  | _ => undef
  end.
(** sliding_window_average_by_count.c:41-88 *)
Definition window_create (window_count : Z) (b1 b2 : bool) : L (option id) :=
  if window_count <? 1 then ret None
  else
    let* handle := acquire Mem b1 in
    match handle with
    | None => ret None
    | Some handle =>
      let* lock := acquire Lock b2 in
      match lock with
      | None => release Mem handle ;;; ret None
      | Some lock => store handle (OWindow lock) ;;; ret (Some handle)
      end
    end.
(** sliding_window_average_by_count.c:27-39 *)
Definition window_dispose (handle : id) : L unit :=
  let* o := load handle in
  match o with OWindow lock => release Lock lock ;;; release Mem handle | _ => undef end.
(** worker_thread.c:79-126 *)
Definition worker_thread_create (worker_func : bool) (b1 b2 : bool) : L (option id) :=
  if negb worker_func then ret None
  else
    let* w := acquire Mem b1 in
    match w with
    | None => ret None
    | Some w =>
      let* sm := acquire Sm b2 in
      match sm with
      | None => release Mem w ;;; ret None
      | Some sm => store w (OWorker sm) ;;; ret (Some w)
      end
    end.
(** worker_thread.c:140-164, the worker thread is not open *)
Definition worker_thread_destroy (w : id) : L unit :=
  let* o := load w in
  match o with OWorker sm => release Sm sm ;;; release Mem w | _ => undef end.
(** tp_worker_thread.c:43-98 *)
Definition tp_worker_thread_create (execution_engine : option nat) (worker_func : bool) (b1 b2 : bool) : L (option id) :=
  match execution_engine, worker_func with
  | Some engine, true =>
    let* w := acquire Mem b1 in
    match w with
    | None => ret None
    | Some w =>
      let* sm := acquire Sm b2 in
      match sm with
      | None => release Mem w ;;; ret None
      | Some sm => inc_ref (Some engine) ;;; store w (OTpWorker sm engine) ;;; ret (Some w)
      end
    end
  | _, _ => ret None
  end.
(** tp_worker_thread.c:116-138, the worker thread is not open *)
Definition tp_worker_thread_destroy (w : id) : L unit :=
  let* o := load w in
  match o with OTpWorker sm engine => dec_ref (Some engine) ;;; release Sm sm ;;; release Mem w | _ => undef end.
(** tcall_dispatcher_ll.h:125-156 *)
Definition dispatcher_create (b1 b2 : bool) : L (option id) :=
  let* d := acquire Mem b1 in
  match d with
  | None => ret None
  | Some d =>
    let* lock := acquire Lock b2 in
    match lock with
    | None => release Mem d ;;; ret None
    | Some lock => store d (ODispatcher lock) ;;; ret (Some d)
    end
  end.
(** tcall_dispatcher_ll.h:100-122, without targets *)
Definition dispatcher_dispose (d : id) : L unit :=
  let* o := load d in
  match o with ODispatcher lock => release Lock lock ;;; release Mem d | _ => undef end.
(** cancellation_token.c:62-109 *)
Definition cancellation_token_create (b1 b2 b3 : bool) : L (option id) :=
  let* token := acquire Mem b1 in
  match token with
  | None => ret None
  | Some token =>
    let* dispatcher := dispatcher_create b2 b3 in
    match dispatcher with
    | None => release Mem token ;;; ret None
    | Some dispatcher => store token (OToken dispatcher) ;;; ret (Some token)
    end
  end.
(** cancellation_token.c:45-49 *)
Definition cancellation_token_dispose (token : id) : L unit :=
  let* o := load token in
  match o with OToken dispatcher => dispatcher_dispose dispatcher ;;; release Mem token | _ => undef end.
(** tarray_ll.h:104-148 *)
Definition tarray_create (capacity : Z) (b1 b2 : bool) : L (option id) :=
  if capacity =? 0 then ret None
  else
    let* result := acquire Mem b1 in
    match result with
    | None => ret None
    | Some result =>
      let* arr := acquire Mem b2 in
      match arr with
      | None => release Mem result ;;; ret None
      | Some arr => store result (OTArray arr) ;;; ret (Some result)
      end
    end.
(** tarray_ll.h:83-100; the cleanup function, which does not free the array, is left out *)
Definition tarray_free (tarray : id) : L unit :=
  let* o := load tarray in
  match o with OTArray arr => release Mem arr ;;; release Mem tarray | _ => undef end.

(** What is created, with the arguments that matter: for a worker thread, whether worker_func is not NULL. *)
Inductive what := Channel (log_context threadpool : option nat) | Window (window_count : Z) | Worker (f : bool) | TpWorker (execution_engine : option nat) (f : bool) | Token | TArray (capacity : Z).
Definition create (w : what) (b1 b2 b3 : bool) : L (option id) :=
  match w with
  | Channel log_context threadpool => channel_create log_context threadpool b1 b2 b3
  | Window wc => window_create wc b1 b2
  | Worker f => worker_thread_create f b1 b2
  | TpWorker e f => tp_worker_thread_create e f b1 b2
  | Token => cancellation_token_create b1 b2 b3
  | TArray capacity => tarray_create capacity b1 b2
  end.
Definition destroy (w : what) (h : id) : L unit :=
  match w with
  | Channel _ _ => channel_dispose h
  | Window _ => window_dispose h
  | Worker _ => worker_thread_destroy h
  | TpWorker _ _ => tp_worker_thread_destroy h
  | Token => cancellation_token_dispose h
  | TArray _ => tarray_free h
  end.
(** Histories: objects are created, with any step failing, and destroyed once, in any order; the list is that of the objects there. *)
Inductive history (refs0 : nat -> nat) : ledger -> list (id * what) -> Prop :=
| h_start : history refs0 (Ledger 0 ∅ ∅ refs0) []
| h_create s l w b1 b2 b3 h s' : history refs0 s l -> create w b1 b2 b3 s = Done (Some h, s') -> history refs0 s' ((h, w) :: l)
| h_fail s l w b1 b2 b3 s' : history refs0 s l -> create w b1 b2 b3 s = Done (None, s') -> history refs0 s' l
| h_destroy s l1 h w l2 s' : history refs0 s (l1 ++ (h, w) :: l2) -> destroy w h s = Done (tt, s') -> history refs0 s' (l1 ++ l2).
