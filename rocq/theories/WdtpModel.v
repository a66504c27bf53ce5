(** The threadpool of the watchdogs (src/watchdog_threadpool.c): init, get and deinit called by any number of threads.
    Atomic actions: each interlocked operation, each read and write of g_watchdog.threadpool, each function of c_pal. Threadpools and execution engines are numbered as they are created; their reference counts
    are not bounded. A threadpool holds one reference to its engine. THANDLE_INITIALIZE reads the handle, then counts the reference; THANDLE_ASSIGN of NULL reads it, gives up the reference, then writes NULL.
    The code leaves open whether get may overlap deinit; [apart] says that the callers keep them apart. *)
From Verif Require Import Common Prog Conc.
Local Open Scope Z_scope.

(** [m1], [m2]: whether execution_engine_create and threadpool_create succeed. Drop p: the caller gives up a reference that get has returned. *)
Inductive op := Init (m1 m2 : bool) | Deinit | Get | Drop (p : nat).
Inductive res := Int (z : Z) | Void | Pool (p : option nat).
Inductive event :=
| Called (i : nat) (o : op)
| Returned (i : nat) (o : op) (r : res)
| Up (i p : nat)                   (* thread i has made threadpool p the one that get returns *)
| Down (i : nat)                   (* thread i has begun to do away with it *)
| Freed (p : nat).                 (* threadpool p is destroyed *)
Record wdtp := Wdtp {
  state : Z;                       (* g_watchdog_init_state: NOT_INIT 0, INITIALIZING 1, OK 2, DEINITIALIZING 3 *)
  cell : option nat;               (* g_watchdog.threadpool *)
  prefs : nat -> nat; erefs : nat -> nat;   (* reference counts of the threadpools and of the engines; 0: it does not exist *)
  next : nat;
  held : nat -> nat; gets : nat; deinits : nat;   (* the callers: the references they hold, the calls of get and of deinit that run *)
  hist : list event;               (* newest first *)
}.
Definition set_state z s := Wdtp z (cell s) (prefs s) (erefs s) (next s) (held s) (gets s) (deinits s) (hist s).
Definition set_cell x s := Wdtp (state s) x (prefs s) (erefs s) (next s) (held s) (gets s) (deinits s) (hist s).
Definition set_refs f g n s := Wdtp (state s) (cell s) f g n (held s) (gets s) (deinits s) (hist s).
Definition set_use f a b s := Wdtp (state s) (cell s) (prefs s) (erefs s) (next s) f a b (hist s).
Definition add_ev e s := Wdtp (state s) (cell s) (prefs s) (erefs s) (next s) (held s) (gets s) (deinits s) (e :: hist s).
Definition upd (f : nat -> nat) (p v : nat) : nat -> nat := fun q => if decide (q = p) then v else f q.

Definition load : M wdtp Z := fun s => Done (state s, s).
Definition cas (new old : Z) : M wdtp Z := fun s => Done (state s, if state s =? old then set_state new s else s).
Definition cas_deinit (i : nat) : M wdtp Z := fun s => Done (state s, if state s =? 2 then add_ev (Down i) (set_state 3 s) else s).
Definition exchange (z : Z) : M wdtp unit := fun s => Done (tt, set_state z s).
Definition exchange_ok (i : nat) : M wdtp unit := fun s => match cell s with Some p => Done (tt, add_ev (Up i p) (set_state 2 s)) | None => Undef end.
Definition read_cell : M wdtp (option nat) := fun s => Done (cell s, s).
Definition write_cell (x : option nat) : M wdtp unit := fun s => Done (tt, set_cell x s).
Definition engine_create : M wdtp nat := fun s => Done (next s, set_refs (prefs s) (upd (erefs s) (next s) 1) (S (next s)) s).
Definition engine_dec_ref (p : nat) : M wdtp unit := fun s => match erefs s p with S n => Done (tt, set_refs (prefs s) (upd (erefs s) p n) (next s) s) | O => Undef end.
Definition threadpool_create (p : nat) : M wdtp unit := fun s => match erefs s p with S n => Done (tt, set_refs (upd (prefs s) p 1) (upd (erefs s) p (S (S n))) (next s) s) | O => Undef end.
Definition inc_ref (p : nat) : M wdtp unit := fun s => match prefs s p with S n => Done (tt, set_refs (upd (prefs s) p (S (S n))) (erefs s) (next s) s) | O => Undef end.
Definition dec_ref (p : nat) : M wdtp unit := fun s =>
  match prefs s p with
  | S (S n) => Done (tt, set_refs (upd (prefs s) p (S n)) (erefs s) (next s) s)
  | S O => match erefs s p with S n => Done (tt, add_ev (Freed p) (set_refs (upd (prefs s) p 0) (upd (erefs s) p n) (next s) s)) | O => Undef end
  | O => Undef
  end.

(** watchdog_threadpool.c:34-84 *)
Definition watchdog_threadpool_init (i : nat) (m1 m2 : bool) : prog wdtp res :=
  act* st := cas 1 0 in
  if negb (st =? 0) then Ret (Int 1)
  else if negb m1 then
    act* _ := exchange 0 in
    Ret (Int 1)
  else
    act* execution_engine := engine_create in
    if negb m2 then
      act* _ := engine_dec_ref execution_engine in
      act* _ := exchange 0 in
      Ret (Int 1)
    else
      act* _ := threadpool_create execution_engine in
      act* _ := write_cell (Some execution_engine) in
      act* _ := exchange_ok i in
      act* _ := engine_dec_ref execution_engine in
      Ret (Int 0).
(** watchdog_threadpool.c:86-101 *)
Definition watchdog_threadpool_deinit (i : nat) : prog wdtp res :=
  act* st := cas_deinit i in
  if negb (st =? 2) then Ret Void
  else
    act* t := read_cell in
    match t with
    | Some p =>
      act* _ := dec_ref p in
      act* _ := write_cell None in
      act* _ := exchange 0 in
      Ret Void
    | None =>
      act* _ := exchange 0 in
      Ret Void
    end.
(** watchdog_threadpool.c:103-120 *)
Definition watchdog_threadpool_get (i : nat) : prog wdtp res :=
  act* st := load in
  if negb (st =? 2) then Ret (Pool None)
  else
    act* t := read_cell in
    match t with
    | Some p =>
      act* _ := inc_ref p in
      Ret (Pool (Some p))
    | None => Ret (Pool None)
    end.
Definition drop (p : nat) : prog wdtp res :=
  act* _ := dec_ref p in
  Ret Void.

Definition pools (apart : bool) : system wdtp op res := {|
  code := fun i o => match o with Init m1 m2 => watchdog_threadpool_init i m1 m2 | Deinit => watchdog_threadpool_deinit i | Get => watchdog_threadpool_get i | Drop p => drop p end;
  calls := fun i o s =>
    let s' := add_ev (Called i o) s in
    match o with
    | Init _ _ => Some s'
    | Deinit => if apart && bool_decide (gets s <> 0%nat) then None else Some (set_use (held s) (gets s) (S (deinits s)) s')
    | Get => if apart && bool_decide (deinits s <> 0%nat) then None else Some (set_use (held s) (S (gets s)) (deinits s) s')
    | Drop p => match held s p with S n => Some (set_use (upd (held s) p n) (gets s) (deinits s) s') | O => None end
    end;
  returns := fun i o r s =>
    let s' := add_ev (Returned i o r) s in
    match o with
    | Init _ _ | Drop _ => s'
    | Deinit => set_use (held s) (gets s) (pred (deinits s)) s'
    | Get => set_use (match r with Pool (Some p) => upd (held s) p (S (held s p)) | _ => held s end) (pred (gets s)) (deinits s) s'
    end;
  env := fun s s' => False;
|}.
Definition initial : wdtp := Wdtp 0 None (fun _ => 0%nat) (fun _ => 0%nat) 0 (fun _ => 0%nat) 0 0 [].
