(** TCALL_DISPATCHER (inc/c_util/tcall_dispatcher_ll.h) used by any number of threads.
    Atomic actions: taking and releasing the lock, malloc, free, each DList function, each reading of a link, the start and the end of each call of a target. The list of targets may only be looked at
    by a thread that holds the lock and only be changed by one that holds it exclusively, otherwise the outcome is undefined (a data race); so the steps inside one DList function need not be told apart.
    The DList functions act on the sequence of entries (that they do is C01). An entry is shown with the fields function_to_call and call_context of the target it is in, which are written before the entry
    is put into the list and not changed afterwards. srw_lock_ll (c_pal): a shared or exclusive lock that is not recursive. The targets do not call the dispatcher they are called by.
    The reference count of the dispatcher's THANDLE is left out here: the dispatcher is freed by a call made when no other call is running. DrcModel.v adds it. *)
From Verif Require Import Common Prog Conc.
Local Open Scope Z_scope.

Notation handle := nat.                                        (* the address of a target *)
Record target := Target { th : handle; tf : Z; tc : Z }.       (* its address, function_to_call, call_context *)
(** The calls. [d]: whether tcall_dispatcher is the dispatcher or NULL. Function 0 is NULL. [mem]: whether the malloc of this call succeeds. *)
Inductive op :=
| Register (d : bool) (f c : Z) (mem : bool)
| Unregister (d : bool) (t : option handle)
| Dispatch (d : bool) (a : Z)                                  (* a: the arguments passed on to the targets *)
| Free.                                                        (* the last reference goes away *)
Inductive res := Handle (t : option handle) | Int (r : Z).     (* 1 stands for MU_FAILURE *)
(** What has happened, for the statements. *)
Inductive event :=
| Called (i : nat) (o : op)
| Returned (i : nat) (o : op) (r : res)
| Begins (i : nat) (t : target) (a : Z)                        (* a dispatch running in thread i calls function_to_call of t, with call_context of t and with a *)
| Ends (i : nat) (t : handle).                                 (* that call has returned *)

Record disp := Disp {
  writer : option nat;       (* the lock: the thread that holds it exclusively *)
  readers : list nat;        (* the threads that hold it shared *)
  dead : bool;               (* srw_lock_ll_deinit has been called *)
  targets : list target;     (* the entries in call_targets *)
  nodes : gset handle;       (* the target structs allocated and not yet freed *)
  fresh : handle;            (* addresses from here on have not been used: addresses are not used again *)
  hist : list event;         (* newest first *)
  regs : list target;        (* the targets ever put into the list, oldest first *)
}.
Definition set_lock w r s := Disp w r (dead s) (targets s) (nodes s) (fresh s) (hist s) (regs s).
Definition set_hist h s := Disp (writer s) (readers s) (dead s) (targets s) (nodes s) (fresh s) h (regs s).

Definition acquire_exclusive (i : nat) : M disp unit := fun s =>
  if dead s then Undef else match writer s, readers s with None, [] => Done (tt, set_lock (Some i) [] s) | _, _ => NoFuel end.
Definition release_exclusive (i : nat) : M disp unit := fun s => if decide (writer s = Some i) then Done (tt, set_lock None (readers s) s) else Undef.
Definition acquire_shared (i : nat) : M disp unit := fun s =>
  if dead s then Undef else match writer s with None => Done (tt, set_lock None (i :: readers s) s) | _ => NoFuel end.
Definition release_shared (i : nat) : M disp unit := fun s => if decide (i ∈ readers s) then Done (tt, set_lock (writer s) (filter (.≠ i) (readers s)) s) else Undef.
Definition srw_deinit : M disp unit := fun s =>
  match writer s, readers s with None, [] => Done (tt, Disp None [] true (targets s) (nodes s) (fresh s) (hist s) (regs s)) | _, _ => Undef end.
Definition may_write (i : nat) (s : disp) : bool := bool_decide (writer s = Some i) || dead s.
Definition may_read (i : nat) (s : disp) : bool := may_write i s || bool_decide (i ∈ readers s).

Definition malloc_target : M disp handle := fun s => Done (fresh s, Disp (writer s) (readers s) (dead s) (targets s) ({[fresh s]} ∪ nodes s) (S (fresh s)) (hist s) (regs s)).
Definition free_target (h : handle) : M disp unit := fun s =>
  if decide (h ∈ nodes s) then Done (tt, Disp (writer s) (readers s) (dead s) (targets s) (nodes s ∖ {[h]}) (fresh s) (hist s) (regs s)) else Undef.
(** DList_InsertTailList *)
Definition insert_tail (i : nat) (t : target) : M disp unit := fun s =>
  if may_write i s && bool_decide (th t ∈ nodes s) then Done (tt, Disp (writer s) (readers s) (dead s) (targets s ++ [t]) (nodes s) (fresh s) (hist s) (regs s ++ [t])) else Undef.
(** DList_RemoveEntryList *)
Definition remove_entry (i : nat) (h : handle) : M disp unit := fun s =>
  if may_write i s && bool_decide (h ∈ th <$> targets s) then Done (tt, Disp (writer s) (readers s) (dead s) (filter (fun t => th t ≠ h) (targets s)) (nodes s) (fresh s) (hist s) (regs s)) else Undef.
(** Flink of the list head (None) or of an entry; None: the list head. *)
Fixpoint link_after (h : handle) (l : list target) : option (option target) :=
  match l with
  | [] => None
  | t :: l => if decide (th t = h) then Some (head l) else link_after h l
  end.
Definition flink (i : nat) (e : option target) : M disp (option target) := fun s =>
  if may_read i s then
    match e with
    | None => Done (head (targets s), s)
    | Some t => match link_after (th t) (targets s) with Some n => Done (n, s) | None => Undef end
    end
  else Undef.
(** A target's function starts and returns. *)
Definition begin_target (i : nat) (t : target) (a : Z) : M disp unit := fun s => Done (tt, set_hist (Begins i t a :: hist s) s).
Definition end_target (i : nat) (t : target) : M disp unit := fun s => Done (tt, set_hist (Ends i (th t) :: hist s) s).

(** tcall_dispatcher_ll.h:159-202 *)
Definition REGISTER_TARGET (i : nat) (d : bool) (f c : Z) (mem : bool) : prog disp res :=
  if negb d || (f =? 0) then Ret (Handle None)
  else if negb mem then Ret (Handle None)                    (* malloc failed *)
  else
    act* h := malloc_target in
    act* _ := acquire_exclusive i in
    act* _ := insert_tail i (Target h f c) in
    act* _ := release_exclusive i in
    Ret (Handle (Some h)).
(** tcall_dispatcher_ll.h:205-234 *)
Definition UNREGISTER_TARGET (i : nat) (d : bool) (t : option handle) : prog disp res :=
  match d, t with
  | true, Some h =>
    act* _ := acquire_exclusive i in
    act* _ := remove_entry i h in
    act* _ := release_exclusive i in
    act* _ := free_target h in
    Ret (Int 0)
  | _, _ => Ret (Int 1)
  end.
(** tcall_dispatcher_ll.h:253-258: the loop over the list, from this entry on *)
CoFixpoint dispatch_loop (i : nat) (a : Z) (current_entry : option target) : prog disp res :=
  match current_entry with
  | Some t =>
    act* _ := begin_target i t a in
    act* _ := end_target i t in
    act* next := flink i (Some t) in
    dispatch_loop i a next
  | None =>
    act* _ := release_shared i in
    Ret (Int 0)
  end.
(** tcall_dispatcher_ll.h:237-266 *)
Definition DISPATCH_CALL (i : nat) (d : bool) (a : Z) : prog disp res :=
  if negb d then Ret (Int 1)
  else
    act* _ := acquire_shared i in
    act* first := flink i None in
    dispatch_loop i a first.
(** tcall_dispatcher_ll.h:111-119: the loop of the dispose function *)
CoFixpoint free_loop (i : nat) (current_entry : option target) : prog disp res :=
  match current_entry with
  | Some t =>
    act* _ := remove_entry i (th t) in
    act* _ := free_target (th t) in
    act* next := flink i None in
    free_loop i next
  | None => Ret (Int 0)
  end.
(** tcall_dispatcher_ll.h:100-122 *)
Definition FREE (i : nat) : prog disp res :=
  act* _ := srw_deinit in
  act* first := flink i None in
  free_loop i first.

(** The handles that users of the dispatcher may still unregister: returned by REGISTER_TARGET, and UNREGISTER_TARGET not yet called for them. *)
Fixpoint handles (h : list event) : list handle :=
  match h with
  | [] => []
  | Returned _ (Register _ _ _ _) (Handle (Some t)) :: h => t :: handles h
  | Called _ (Unregister true (Some t)) :: h => filter (.≠ t) (handles h)
  | _ :: h => handles h
  end.
(** The calls running; whether the dispatcher has been given up. *)
Fixpoint running (h : list event) : list nat :=
  match h with [] => [] | Called i _ :: h => i :: running h | Returned i _ _ :: h => filter (.≠ i) (running h) | _ :: h => running h end.
Fixpoint given_up (h : list event) : bool := match h with [] => false | Called _ Free :: _ => true | _ :: h => given_up h end.

(** A target is unregistered once, by whoever holds its handle; the last reference goes away when no call is running, and there are no calls afterwards. *)
Definition may_call (o : op) (h : list event) : bool :=
  negb (given_up h) &&
  match o with
  | Unregister true (Some t) => bool_decide (t ∈ handles h)
  | Free => bool_decide (running h = [])
  | _ => true
  end.
Definition dispatcher : system disp op res := {|
  code := fun i o => match o with
                     | Register d f c mem => REGISTER_TARGET i d f c mem
                     | Unregister d t => UNREGISTER_TARGET i d t
                     | Dispatch d a => DISPATCH_CALL i d a
                     | Free => FREE i
                     end;
  calls := fun i o s => if may_call o (hist s) then Some (set_hist (Called i o :: hist s) s) else None;
  returns := fun i o r s => set_hist (Returned i o r :: hist s) s;
  env := fun _ _ => False;
|}.
(** tcall_dispatcher_ll.h:125-156: what CREATE leaves; when malloc or srw_lock_ll_init fails there is no dispatcher. *)
Definition created : disp := Disp None [] false [] ∅ 0 [] [].
