(** The dispatcher of thread notifications (src/thread_notifications_dispatcher.c): init, deinit and get called by any number of threads, while the operating system notifies.
    Atomic actions: each read and write of the module's variables, each function of c_pal, each function of the TCALL_DISPATCHER (modelled step by step in DispModel.v; here each of them takes effect at once, and its
    targets do not call back). Dispatchers are numbered as they are created; their reference counts are not bounded. TCALL_DISPATCHER_ASSIGN of NULL reads the handle, gives up the reference, then writes NULL.
    Assumed of c_pal: thread_notifications_lackey_dll_init_callback makes every notification that starts from then on call the function, or fails; thread_notifications_lackey_dll_deinit_callback ends that, it does not
    wait for notifications that have started. The code has no lock and does not say what may overlap; [apart] says that the callers keep init and deinit apart from each other and from get, and that no notification
    overlaps deinit. *)
From Verif Require Import Common Prog Conc.
Local Open Scope Z_scope.

(** [m1], [m2]: whether TCALL_DISPATCHER_CREATE and thread_notifications_lackey_dll_init_callback succeed. Notify: a thread starts or ends, in it the DLL looks for the callback. The others are calls that holders of a
    dispatcher (which get has returned) make: they give it up, register a function with it ([m]: there is memory), unregister one. *)
Inductive op := Init (m1 m2 : bool) | Deinit | Get | Notify (reason : Z) | Drop (p : nat) | Register (p : nat) (f : Z) (m : bool) | Unregister (p t : nat).
Inductive res := Int (z : Z) | Void | Disp (p : option nat) | Handle (t : option nat).
Inductive event :=
| Called (i : nat) (o : op)
| Returned (i : nat) (o : op) (r : res)
| Up (i p : nat)                   (* thread i has made notifications go to dispatcher p *)
| Down (i : nat)                   (* thread i has ended that *)
| Freed (p : nat)                  (* dispatcher p is destroyed *)
| Registers (i p t : nat) (f : Z) | Unregisters (i p t : nat)
| Calls (i p : nat) (reason : Z) (l : list (nat * Z)).   (* dispatcher p calls the functions l, one after the other, with the reason *)
Record tnd := Tnd {
  init : bool;                     (* thread_notifications_dispatcher.state is THREAD_NOTIFICATIONS_DISPATCHER_INITIALIZED *)
  cell : option nat;               (* thread_notifications_dispatcher.thread_notifications_call_dispatcher *)
  cb : bool;                       (* the DLL has thread_notifications_lackey_dll_cb *)
  drefs : nat -> nat; regs : nat -> list (nat * Z);   (* the dispatchers: reference counts (0: it does not exist), registered functions *)
  next : nat; tnext : nat;
  held : nat -> nat; busy : nat -> nat;              (* the callers: the references they hold, the calls of register and unregister that run *)
  changing : nat; deinits : nat; gets : nat; notifying : nat;   (* the calls that run: of init and deinit, of deinit, of get, the notifications *)
  hist : list event;               (* newest first *)
}.
Definition set_vars a b c s := Tnd a b c (drefs s) (regs s) (next s) (tnext s) (held s) (busy s) (changing s) (deinits s) (gets s) (notifying s) (hist s).
Definition set_refs f n s := Tnd (init s) (cell s) (cb s) f (regs s) n (tnext s) (held s) (busy s) (changing s) (deinits s) (gets s) (notifying s) (hist s).
Definition set_regs f n s := Tnd (init s) (cell s) (cb s) (drefs s) f (next s) n (held s) (busy s) (changing s) (deinits s) (gets s) (notifying s) (hist s).
Definition set_held f g s := Tnd (init s) (cell s) (cb s) (drefs s) (regs s) (next s) (tnext s) f g (changing s) (deinits s) (gets s) (notifying s) (hist s).
Definition set_runs a b c d s := Tnd (init s) (cell s) (cb s) (drefs s) (regs s) (next s) (tnext s) (held s) (busy s) a b c d (hist s).
Definition add_ev e s := Tnd (init s) (cell s) (cb s) (drefs s) (regs s) (next s) (tnext s) (held s) (busy s) (changing s) (deinits s) (gets s) (notifying s) (e :: hist s).
Definition upd {A} (f : nat -> A) (p : nat) (v : A) : nat -> A := fun q => if decide (q = p) then v else f q.

Definition read_state : M tnd bool := fun s => Done (init s, s).
Definition write_state (b : bool) : M tnd unit := fun s => Done (tt, set_vars b (cell s) (cb s) s).
Definition read_cell : M tnd (option nat) := fun s => Done (cell s, s).
Definition write_cell (x : option nat) : M tnd unit := fun s => Done (tt, set_vars (init s) x (cb s) s).
Definition lackey_init (i : nat) : M tnd unit := fun s => match cell s with Some p => Done (tt, add_ev (Up i p) (set_vars (init s) (cell s) true s)) | None => Undef end.
Definition lackey_deinit (i : nat) : M tnd unit := fun s => Done (tt, add_ev (Down i) (set_vars (init s) (cell s) false s)).
Definition lackey_callback : M tnd bool := fun s => Done (cb s, s).
Definition create : M tnd nat := fun s => Done (next s, set_regs (upd (regs s) (next s) []) (tnext s) (set_refs (upd (drefs s) (next s) 1%nat) (S (next s)) s)).
Definition inc_ref (p : nat) : M tnd unit := fun s => match drefs s p with S n => Done (tt, set_refs (upd (drefs s) p (S (S n))) (next s) s) | O => Undef end.
Definition dec_ref (p : nat) : M tnd unit := fun s =>
  match drefs s p with
  | S (S n) => Done (tt, set_refs (upd (drefs s) p (S n)) (next s) s)
  | S O => Done (tt, add_ev (Freed p) (set_refs (upd (drefs s) p 0%nat) (next s) s))
  | O => Undef
  end.
Definition dispatch (i p : nat) (reason : Z) : M tnd unit := fun s => match drefs s p with S _ => Done (tt, add_ev (Calls i p reason (regs s p)) s) | O => Undef end.
Definition register (i p : nat) (f : Z) : M tnd nat := fun s =>
  match drefs s p with S _ => Done (tnext s, add_ev (Registers i p (tnext s) f) (set_regs (upd (regs s) p (regs s p ++ [(tnext s, f)])) (S (tnext s)) s)) | O => Undef end.
Definition unregister (i p t : nat) : M tnd unit := fun s =>
  match drefs s p with S _ => Done (tt, add_ev (Unregisters i p t) (set_regs (upd (regs s) p (filter (fun x => x.1 <> t) (regs s p))) (tnext s) s)) | O => Undef end.

(** TCALL_DISPATCHER_ASSIGN(THREAD_NOTIFICATION_CALL)(&thread_notifications_dispatcher.thread_notifications_call_dispatcher, NULL) *)
Definition assign_null (k : prog tnd res) : prog tnd res :=
  act* t := read_cell in
  match t with
  | Some p =>
    act* _ := dec_ref p in
    act* _ := write_cell None in
    k
  | None => k
  end.
(** thread_notifications_dispatcher.c:41-90 *)
Definition thread_notifications_dispatcher_init (i : nat) (m1 m2 : bool) : prog tnd res :=
  act* st := read_state in
  if st then Ret (Int 1)
  else if negb m1 then Ret (Int 1)
  else
    act* call_dispatcher := create in
    act* _ := write_cell (Some call_dispatcher) in
    if negb m2 then assign_null (Ret (Int 1))
    else
      act* _ := lackey_init i in
      act* _ := write_state true in
      Ret (Int 0).
(** thread_notifications_dispatcher.c:92-111 *)
Definition thread_notifications_dispatcher_deinit (i : nat) : prog tnd res :=
  act* st := read_state in
  if negb st then Ret Void
  else
    act* _ := lackey_deinit i in
    assign_null (
      act* _ := write_state false in
      Ret Void).
(** thread_notifications_dispatcher.c:113-119 *)
Definition thread_notifications_dispatcher_get_call_dispatcher : prog tnd res :=
  act* t := read_cell in
  match t with
  | Some p =>
    act* _ := inc_ref p in
    Ret (Disp (Some p))
  | None => Ret (Disp None)
  end.
(** thread_notifications_dispatcher.c:35-39 thread_notifications_lackey_dll_cb, when the DLL has it. Dispatching a call with no dispatcher does nothing (tcall_dispatcher_ll.h). *)
Definition notify (i : nat) (reason : Z) : prog tnd res :=
  act* c := lackey_callback in
  if negb c then Ret Void
  else
    act* t := read_cell in
    match t with
    | Some p =>
      act* _ := dispatch i p reason in
      Ret Void
    | None => Ret Void
    end.
Definition run (i : nat) (o : op) : prog tnd res :=
  match o with
  | Init m1 m2 => thread_notifications_dispatcher_init i m1 m2
  | Deinit => thread_notifications_dispatcher_deinit i
  | Get => thread_notifications_dispatcher_get_call_dispatcher
  | Notify reason => notify i reason
  | Drop p => act* _ := dec_ref p in Ret Void
  | Register p f m => if m then act* t := register i p f in Ret (Handle (Some t)) else Ret (Handle None)
  | Unregister p t => act* _ := unregister i p t in Ret (Int 0)
  end.

Definition tndsys (apart : bool) : system tnd op res := {|
  code := run;
  calls := fun i o s =>
    let s' := add_ev (Called i o) s in
    match o with
    | Init _ _ => if apart && negb (bool_decide (changing s = 0 /\ gets s = 0)%nat) then None else Some (set_runs (S (changing s)) (deinits s) (gets s) (notifying s) s')
    | Deinit => if apart && negb (bool_decide (changing s = 0 /\ gets s = 0 /\ notifying s = 0)%nat) then None else Some (set_runs (S (changing s)) (S (deinits s)) (gets s) (notifying s) s')
    | Get => if apart && negb (bool_decide (changing s = 0)%nat) then None else Some (set_runs (changing s) (deinits s) (S (gets s)) (notifying s) s')
    | Notify _ => if apart && negb (bool_decide (deinits s = 0)%nat) then None else Some (set_runs (changing s) (deinits s) (gets s) (S (notifying s)) s')
    | Drop p => if bool_decide (busy s p < held s p)%nat then Some (set_held (upd (held s) p (pred (held s p))) (busy s) s') else None
    | Register p _ _ | Unregister p _ => if bool_decide (busy s p < held s p)%nat then Some (set_held (held s) (upd (busy s) p (S (busy s p))) s') else None
    end;
  returns := fun i o r s =>
    let s' := add_ev (Returned i o r) s in
    match o with
    | Init _ _ => set_runs (pred (changing s)) (deinits s) (gets s) (notifying s) s'
    | Deinit => set_runs (pred (changing s)) (pred (deinits s)) (gets s) (notifying s) s'
    | Get => set_runs (changing s) (deinits s) (pred (gets s)) (notifying s) (match r with Disp (Some p) => set_held (upd (held s) p (S (held s p))) (busy s) s' | _ => s' end)
    | Notify _ => set_runs (changing s) (deinits s) (gets s) (pred (notifying s)) s'
    | Drop _ => s'
    | Register p _ _ | Unregister p _ => set_held (held s) (upd (busy s) p (pred (busy s p))) s'
    end;
  env := fun s s' => False;
|}.
Definition initial : tnd := Tnd false None false (fun _ => 0%nat) (fun _ => []) 0 0 (fun _ => 0%nat) (fun _ => 0%nat) 0 0 0 0 [].
