(** WATCHDOG (src/watchdog.c): one watchdog, used by any number of threads.
    Atomic actions: each function of c_pal, malloc and free, the start and the end of each call of the user's callback. Assumed of c_pal:
    - sm: as in TpwModel.v; here "closes" is the moment at which sm_close_begin returns, having waited for the executions granted before;
    - timer: threadpool_timer_start and threadpool_timer_restart arm it; an armed timer may expire at any time, once, and a thread of the pool then calls watchdog_expired_callback some time later;
      threadpool_timer_cancel, and giving up the timer, disarm it, call off the expiries that have not been given to a thread yet, and wait until those that have are finished; restart does not fail.
    The user's callback does not call watchdog_reset or watchdog_stop of the same watchdog. watchdog_reset may be called by several threads at once; watchdog_stop is called once, when no other call is running, after
    watchdog_start has returned the handle. The message (a THANDLE(RC_STRING)) is not modelled. *)
From Verif Require Import Common Prog Conc.
Local Open Scope Z_scope.

(** The calls. [a]: whether threadpool and callback are not NULL; [m1], [m2], [m3]: whether malloc, sm_create and threadpool_timer_start succeed; [d]: whether the handle is given or NULL. *)
Inductive op := Start (a m1 m2 m3 : bool) | Reset (d : bool) | Stop (d : bool) | Expired.
Inductive res := Handle (b : bool) | Void.            (* Handle false stands for NULL *)
Inductive event :=
| Called (i : nat) (o : op)
| Returned (i : nat) (o : op) (r : res)
| Opens (i : nat) | Closes (i : nat)                  (* the watchdog begins, and ceases, to let its callback be called *)
| Arms (i : nat) | Cancels (i : nat) | Expires        (* the timer: started or restarted; cancelled or given up; expires *)
| Begins (i : nat) | Ends (i : nat).                  (* thread i calls the user's callback with its context; it comes back *)

Inductive smst := Closed | Opening | Opened | Closing.
Record wdog := Wdog {
  mem : bool; smx : bool; sm : smst; execs : nat;     (* the block; state: exists, its state, the executions granted and not ended *)
  tset : bool;                                        (* the field timer has been set *)
  tim : bool; armed : bool; pend : nat; busy : nat;   (* the timer: exists, armed, expiries not given to a thread yet, expiries that a thread deals with *)
  started : bool; usable : bool; inside : nat;        (* the callers: watchdog_start has been called; the handle may be used; calls of reset running *)
  hist : list event;                                  (* newest first *)
}.
Definition set_mem b s := Wdog b (smx s) (sm s) (execs s) (tset s) (tim s) (armed s) (pend s) (busy s) (started s) (usable s) (inside s) (hist s).
Definition set_smx b m s := Wdog (mem s) b m (execs s) (tset s) (tim s) (armed s) (pend s) (busy s) (started s) (usable s) (inside s) (hist s).
Definition set_sm m e s := Wdog (mem s) (smx s) m e (tset s) (tim s) (armed s) (pend s) (busy s) (started s) (usable s) (inside s) (hist s).
Definition set_tset b s := Wdog (mem s) (smx s) (sm s) (execs s) b (tim s) (armed s) (pend s) (busy s) (started s) (usable s) (inside s) (hist s).
Definition set_tim t a p b s := Wdog (mem s) (smx s) (sm s) (execs s) (tset s) t a p b (started s) (usable s) (inside s) (hist s).
Definition set_use b u n s := Wdog (mem s) (smx s) (sm s) (execs s) (tset s) (tim s) (armed s) (pend s) (busy s) b u n (hist s).
Definition add_ev e s := Wdog (mem s) (smx s) (sm s) (execs s) (tset s) (tim s) (armed s) (pend s) (busy s) (started s) (usable s) (inside s) (e :: hist s).
Definition usedsm (m : M wdog bool) : M wdog bool := fun s => if mem s && smx s then m s else Undef.
Definition usesm (m : M wdog unit) : M wdog unit := fun s => if mem s && smx s then m s else Undef.
Definition usetim (m : M wdog unit) : M wdog unit := fun s => if mem s && tset s && tim s then m s else Undef.

Definition malloc_watchdog : M wdog unit := fun s => Done (tt, set_mem true s).
Definition free_watchdog : M wdog unit := fun s => if mem s then Done (tt, set_mem false s) else Undef.
Definition sm_create : M wdog unit := fun s => if mem s then Done (tt, set_smx true Closed s) else Undef.
Definition sm_destroy : M wdog unit := usesm (fun s => if decide (execs s = 0%nat) then Done (tt, set_smx false (sm s) s) else Undef).
Definition sm_open_begin : M wdog bool := usedsm (fun s => match sm s with Closed => Done (true, set_sm Opening (execs s) s) | _ => Done (false, s) end).
Definition sm_open_end (i : nat) : M wdog unit := usesm (fun s => match sm s with Opening => Done (tt, add_ev (Opens i) (set_sm Opened (execs s) s)) | _ => Undef end).
Definition sm_close_begin : M wdog bool := usedsm (fun s => match sm s with Opened => Done (true, set_sm Closing (execs s) s) | _ => Done (false, s) end).
Definition sm_drain (i : nat) : M wdog unit := usesm (fun s => if decide (execs s = 0%nat) then Done (tt, add_ev (Closes i) s) else NoFuel).    (* sm_close_begin returns *)
Definition sm_close_end : M wdog unit := usesm (fun s => match sm s with Closing => Done (tt, set_sm Closed (execs s) s) | _ => Undef end).
Definition sm_exec_begin : M wdog bool := usedsm (fun s => match sm s with Opened => Done (true, set_sm Opened (S (execs s)) s) | _ => Done (false, s) end).
Definition sm_exec_end : M wdog unit := usesm (fun s => match execs s with S n => Done (tt, set_sm (sm s) n s) | O => Undef end).
Definition timer_start (i : nat) : M wdog unit := fun s => Done (tt, add_ev (Arms i) (set_tim true true 0 0 s)).
Definition store_timer : M wdog unit := fun s => if mem s then Done (tt, set_tset true s) else Undef.
Definition timer_restart (i : nat) : M wdog unit := usetim (fun s => Done (tt, add_ev (Arms i) (set_tim true true (pend s) (busy s) s))).
Definition timer_cancel (i : nat) : M wdog unit := usetim (fun s => if decide (busy s = 0%nat) then Done (tt, add_ev (Cancels i) (set_tim true false 0 0 s)) else NoFuel).
Definition timer_drop (i : nat) : M wdog unit := usetim (fun s => if decide (busy s = 0%nat) then Done (tt, add_ev (Cancels i) (set_tset false (set_tim false false 0 0 s))) else NoFuel).
Definition begin_callback (i : nat) : M wdog unit := fun s => if mem s then Done (tt, add_ev (Begins i) s) else Undef.
Definition end_callback (i : nat) : M wdog unit := fun s => Done (tt, add_ev (Ends i) s).

(** watchdog.c:30-58 (the context is the handle given to threadpool_timer_start, so the check for NULL is left out) *)
Definition watchdog_expired_callback (i : nat) : prog wdog res :=
  act* granted := sm_exec_begin in
  if granted : bool then
    act* _ := begin_callback i in
    act* _ := end_callback i in
    act* _ := sm_exec_end in
    Ret Void
  else Ret Void.
(** watchdog.c:60-138 *)
Definition watchdog_start (i : nat) (a m1 m2 m3 : bool) : prog wdog res :=
  if negb a then Ret (Handle false)
  else if negb m1 then Ret (Handle false)
  else
    act* _ := malloc_watchdog in
    if negb m2 then
      act* _ := free_watchdog in
      Ret (Handle false)
    else
      act* _ := sm_create in
      act* granted := sm_open_begin in
      if negb granted then
        act* _ := sm_destroy in
        act* _ := free_watchdog in
        Ret (Handle false)
      else
        act* _ := sm_open_end i in
        if negb m3 then
          act* _ := sm_destroy in
          act* _ := free_watchdog in
          Ret (Handle false)
        else
          act* _ := timer_start i in
          act* _ := store_timer in
          Ret (Handle true).
(** watchdog.c:141-180 *)
Definition watchdog_reset_restart (i : nat) : prog wdog res :=                       (* 167-178 *)
  act* granted := sm_open_begin in
  if granted : bool then
    act* _ := sm_open_end i in
    act* _ := timer_restart i in
    Ret Void
  else Ret Void.
Definition watchdog_reset (i : nat) (d : bool) : prog wdog res :=
  if negb d then Ret Void
  else
    act* granted := sm_close_begin in
    if granted : bool then
      act* _ := sm_drain i in
      act* _ := timer_cancel i in
      act* _ := sm_close_end in
      watchdog_reset_restart i
    else watchdog_reset_restart i.
(** watchdog.c:182-212 *)
Definition watchdog_stop_free (i : nat) : prog wdog res :=                           (* 203-210 *)
  act* _ := timer_drop i in
  act* _ := sm_destroy in
  act* _ := free_watchdog in
  Ret Void.
Definition watchdog_stop (i : nat) (d : bool) : prog wdog res :=
  if negb d then Ret Void
  else
    act* granted := sm_close_begin in
    if granted : bool then
      act* _ := sm_drain i in
      act* _ := sm_close_end in
      watchdog_stop_free i
    else watchdog_stop_free i.

Definition watchdog : system wdog op res := {|
  code := fun i o => match o with Start a m1 m2 m3 => watchdog_start i a m1 m2 m3 | Reset d => watchdog_reset i d | Stop d => watchdog_stop i d | Expired => watchdog_expired_callback i end;
  calls := fun i o s =>
    let s' := add_ev (Called i o) s in
    match o with
    | Start _ _ _ _ => if started s then None else Some (set_use true false 0 s')
    | Reset true => if usable s then Some (set_use true true (S (inside s)) s') else None
    | Stop true => if usable s && bool_decide (inside s = 0%nat) then Some (set_use true false 0 s') else None
    | Reset false | Stop false => Some s'
    | Expired => match pend s with S n => Some (set_tim (tim s) (armed s) n (S (busy s)) s') | O => None end
    end;
  returns := fun i o r s =>
    let s' := add_ev (Returned i o r) s in
    match o, r with
    | Start _ _ _ _, Handle true => set_use true true 0 s'
    | Reset true, _ => set_use true (usable s) (pred (inside s)) s'
    | Expired, _ => set_tim (tim s) (armed s) (pend s) (pred (busy s)) s'
    | _, _ => s'
    end;
  env := fun s s' => armed s = true /\ s' = add_ev Expires (set_tim (tim s) false (S (pend s)) (busy s) s);
|}.
Definition initial : wdog := Wdog false false Closed 0 false false false 0 0 false false 0 [].
