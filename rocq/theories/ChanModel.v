(** src/channel.c and the use it makes of src/async_op.c, by any number of threads. One channel is modelled, from its creation; it is not destroyed.
    Atomic actions: each call of the state machine sm (c-pal), each section under the channel's lock, each access to an operation outside of the lock. Simplified:
    - in place of the callbacks, contexts and correlation ids that the caller gives, an accepted push or pull has a number;
    - the two calls of sm_exec_end in execute_callbacks are one action, and so are what it does after the callbacks, and the wait inside sm_close_begin_with_cb with sm_close_end;
    - the user's callbacks do nothing but being called (other threads may call anything meanwhile).
    Assumed: threadpool_schedule_work that answers 0 makes the work function run once, in some thread; sm_exec_begin is granted only between open and close; sm_close_begin_with_cb is granted when open, and from then on grants nothing, calls the callback, then
    waits until every sm_exec_begin granted has been followed by sm_exec_end. *)
From Verif Require Import Common Prog Conc.
Local Open Scope Z_scope.

Inductive cres := OK | CANCELLED | ABANDONED.
(** channel.c:43-59 CHANNEL_OP, with what async_op.c keeps beside it *)
Record chop := Chop {
  pull : option nat;              (* on_data_available_cb, if not NULL *)
  push : option nat;              (* on_data_consumed_cb, if not NULL *)
  data : option Z;
  chan : bool;                    (* channel is not NULL *)
  result : cres;
  stale : option (option nat);    (* when it was taken off the list: its anchor's successor then, Some None: the list head *)
  self : bool;                    (* async_op: the reference to itself *)
  urefs : nat;                    (* references held by the user *)
  cancelling : bool;              (* async_op.c: cancel_state *)
  begun : bool;                   (* execute_callbacks was started, or abandon_pending_operations took it up *)
  cans : nat }.                   (* calls of async_op_cancel that have not returned *)
Definition freed (o : chop) : bool := negb (self o) && (urefs o =? 0)%nat.

(** What callers do. Wild: anything. NoCancels: no operation is cancelled. NoReleases: the handles of operations are kept (so their memory stays), an operation is cancelled only before its callbacks start, which wait for that, and no operation is
    being cancelled while the channel is being closed. In NoCancels and NoReleases the threadpool never fails. *)
Inductive mode := Wild | NoCancels | NoReleases.
(** The calls; alloc: async_op_create succeeds; sched: threadpool_schedule_work answers 0. Work: the function given to the threadpool. Release: the user gives up a reference to an operation. *)
Inductive op := Push (d : Z) (alloc sched : bool) | Pull (alloc sched : bool) | Cancel (k : nat) (sched : bool) | Release (k : nat) | Open | Close | Work (k : nat).
Inductive res := Void | Failed | Accepted_as (x k : nat) | State (running : bool).
Inductive event :=
| Called (i : nat) (o : op)
| Returned (i : nat) (o : op) (r : res)
| Pushed (x k : nat) (d : Z) | Pulled (x k : nat)        (* accepted, with number x and the handle k *)
| Withdrawn (x : nat) (by_close : bool)                  (* taken off the list without a partner *)
| Callback (x : nat) (r : cres) (pull push : option nat) (d : option Z)    (* with the correlation ids of the pull and the push; d: only for a pull *)
| Opens (i : nat) | Closing | Shut.                      (* sm_open_end, sm_close_begin_with_cb granted, sm_close_end *)

Record st := St {
  sm : nat;                       (* 0: created or closed, 1: opening, 2: open, 3: closing *)
  execs : nat;                    (* sm_exec_begin granted and not yet followed by sm_exec_end *)
  is_open : bool;
  ops : list chop;
  next : nat;
  queue : list nat;               (* op_list *)
  local : list nat;               (* op_list in abandon_pending_operations *)
  work : list nat;                (* scheduled *)
  closes : nat;                   (* calls of channel_close that have not returned *)
  hist : list event }.            (* newest first *)
Definition set_ops (s : st) (l : list chop) : st := St (sm s) (execs s) (is_open s) l (next s) (queue s) (local s) (work s) (closes s) (hist s).
Definition add (es : list event) (s : st) : st := St (sm s) (execs s) (is_open s) (ops s) (next s) (queue s) (local s) (work s) (closes s) (es ++ hist s).
(** Access to operation k *)
Definition with_op {X} (k : nat) (f : chop -> M st X) : M st X := fun s => match ops s !! k with Some o => if freed o then Undef else f o s | None => Undef end.
Definition upd_op (k : nat) (o : chop) : M st unit := fun s => Done (tt, set_ops s (<[k := o]> (ops s))).

(** sm_exec_begin, sm_exec_end *)
Definition exec_begin : M st bool := fun s => if (sm s =? 2)%nat then Done (true, St (sm s) (S (execs s)) (is_open s) (ops s) (next s) (queue s) (local s) (work s) (closes s) (hist s)) else Done (false, s).
Definition exec_end : M st unit := fun s => match execs s with O => Undef | S n => Done (tt, St (sm s) n (is_open s) (ops s) (next s) (queue s) (local s) (work s) (closes s) (hist s)) end.

(** channel.c:358-403 enqueue_operation *)
Definition enqueue (alloc : bool) (pl ps : option nat) (d : option Z) (e : nat -> nat -> event) : M st res := fun s =>
  if alloc then
    let x := next s in let k := length (ops s) in
    Done (Accepted_as x k, St (sm s) (execs s) (is_open s) (ops s ++ [Chop pl ps d true OK None true 1 false false 0]) (S x) (queue s ++ [k]) (local s) (work s) (closes s) (e x k :: hist s))
  else Done (Failed, s).
(** channel.c:405-459 dequeue_operation *)
Definition dequeue (sched : bool) (pl ps : option nat) (d : option Z) (e : nat -> nat -> event) : M st res := fun s =>
  match queue s with
  | [] => Undef
  | k :: q =>
    match ops s !! k with
    | Some o =>
      if freed o then Undef else
      let x := next s in
      let pl' := if pl then pl else pull o in
      let ps' := if pl then push o else ps in
      let d' := if pl then data o else d in
      let o' := Chop pl' ps' d' (chan o) (result o) (Some (head q)) (self o) (urefs o) (cancelling o) (begun o) (cans o) in
      if sched then
        let o' := Chop pl' ps' d' (chan o) (result o) (Some (head q)) (self o) (S (urefs o)) (cancelling o) (begun o) (cans o) in
        Done (Accepted_as x k, St (sm s) (execs s) (is_open s) (<[k := o']> (ops s)) (S x) q (local s) (work s ++ [k]) (closes s) (e x k :: hist s))
      else
        let o' := Chop (if pl then None else pl') (if pl then ps' else None) d' (chan o) (result o) (Some (head q)) (self o) (urefs o) (cancelling o) (begun o) (cans o) in
        Done (Failed, St (sm s) (execs s) (is_open s) (<[k := o']> (ops s)) (next s) q (local s) (work s) (closes s) (hist s))
    | None => Undef
    end
  end.
(** The section under the lock, channel.c:476-520 *)
Definition locked_pull (alloc sched : bool) : M st res := fun s =>
  let x := next s in
  if negb (is_open s) then Done (Failed, s)
  else match queue s with
       | [] => enqueue alloc (Some x) None None Pulled s
       | k :: _ => match ops s !! k with
                   | Some o => if freed o then Undef else if pull o then enqueue alloc (Some x) None None Pulled s else dequeue sched (Some x) None None Pulled s
                   | None => Undef
                   end
       end.
(** channel.c:546-590 *)
Definition locked_push (d : Z) (alloc sched : bool) : M st res := fun s =>
  let x := next s in
  if negb (is_open s) then Done (Failed, s)
  else match queue s with
       | [] => enqueue alloc None (Some x) (Some d) (fun x k => Pushed x k d) s
       | k :: _ => match ops s !! k with
                   | Some o => if freed o then Undef else if push o then enqueue alloc None (Some x) (Some d) (fun x k => Pushed x k d) s else dequeue sched None (Some x) (Some d) (fun x k => Pushed x k d) s
                   | None => Undef
                   end
       end.
(** channel.c:461-528 channel_pull, 530-599 channel_push *)
Definition request (section : M st res) : prog st res :=
  act* g := exec_begin in
  if negb g then Ret Failed
  else
    act* r := section in
    match r with
    | Accepted_as _ _ => Ret r
    | _ => act* _ := exec_end in Ret r
    end.

(** channel.c:238-294 execute_callbacks *)
Definition read_result (k : nat) : M st cres := with_op k (fun o s =>
  if chan o then Done (result o, s) else Undef).
Definition end_execs (k : nat) : M st unit := with_op k (fun o s =>
  if chan o then
    let n := (match pull o with Some _ => 1 | None => 0 end + match push o with Some _ => 1 | None => 0 end)%nat in
    if (n <=? execs s)%nat then Done (tt, St (sm s) (execs s - n) (is_open s) (ops s) (next s) (queue s) (local s) (work s) (closes s) (hist s)) else Undef
  else Undef).
Definition clear_channel (k : nat) : M st unit := with_op k (fun o => upd_op k (Chop (pull o) (push o) (data o) false (result o) (stale o) (self o) (urefs o) (cancelling o) (begun o) (cans o))).
Definition call_pull (k : nat) (r : cres) : M st unit := with_op k (fun o s => match pull o with Some x => Done (tt, add [Callback x r (pull o) (push o) (data o)] s) | None => Done (tt, s) end).
Definition call_push (k : nat) (r : cres) : M st unit := with_op k (fun o s => match push o with Some x => Done (tt, add [Callback x r (pull o) (push o) None] s) | None => Done (tt, s) end).
Definition clean_up (k : nat) : M st unit := with_op k (fun o => upd_op k (Chop (pull o) (push o) None (chan o) (result o) (stale o) false (urefs o) (cancelling o) (begun o) (cans o))).
Definition execute (k : nat) (cont : prog st res) : prog st res :=
  act* r := read_result k in
  act* _ := end_execs k in
  act* _ := clear_channel k in
  act* _ := call_pull k r in
  act* _ := call_push k r in
  act* _ := clean_up k in
  cont.

(** channel.c:91-110 the section under the lock of abandon_pending_operations *)
Definition ids (l : list chop) (q : list nat) : list nat := flat_map (fun k => match l !! k with Some o => option_list (pull o) ++ option_list (push o) | None => [] end) q.
Definition take_list : M st unit := fun s =>
  Done (tt, St (sm s) (execs s) false (ops s) (next s) [] (local s ++ queue s) (work s) (closes s) (map (fun x => Withdrawn x true) (ids (ops s) (queue s)) ++ hist s)).
(** DList_RemoveHeadList(&op_list) *)
Definition pop_local : M st (option nat) := fun s =>
  match local s with
  | [] => Done (None, s)
  | k :: l => with_op k (fun o s =>
      let o' := Chop (pull o) (push o) (data o) (chan o) (result o) (Some (head l)) (self o) (urefs o) (cancelling o) true (cans o) in
      Done (Some k, St (sm s) (execs s) (is_open s) (<[k := o']> (ops s)) (next s) (queue s) l (work s) (closes s) (hist s))) s
  end.
Definition set_result (k : nat) (r : cres) : M st unit := with_op k (fun o => upd_op k (Chop (pull o) (push o) (data o) (chan o) r (stale o) (self o) (urefs o) (cancelling o) (begun o) (cans o))).
Definition close_begin : M st bool := fun s => if (sm s =? 2)%nat then Done (true, St 3 (execs s) (is_open s) (ops s) (next s) (queue s) (local s) (work s) (closes s) (Closing :: hist s)) else Done (false, s).
(** sm_close_begin_with_cb waits; then sm_close_end *)
Definition close_end : M st unit := fun s => match execs s with O => Done (tt, St 0 (execs s) (is_open s) (ops s) (next s) (queue s) (local s) (work s) (closes s) (Shut :: hist s)) | _ => NoFuel end.
(** channel.c:109-122 the loop of abandon_pending_operations; then the rest of channel_close *)
CoFixpoint abandon : prog st res :=
  act* e := pop_local in
  match e with
  | Some k =>
    act* _ := set_result k ABANDONED in
    act* r := read_result k in
    act* _ := end_execs k in
    act* _ := clear_channel k in
    act* _ := call_pull k r in
    act* _ := call_push k r in
    act* _ := clean_up k in
    abandon
  | None =>
    act* _ := close_end in
    Ret Void
  end.
(** channel.c:124-147 channel_close *)
Definition close : prog st res :=
  act* g := close_begin in
  if negb g then Ret Void
  else
    act* _ := take_list in
    abandon.
(** channel.c:206-236 channel_open *)
Definition open_begin : M st bool := fun s => if (sm s =? 0)%nat then Done (true, St 1 (execs s) (is_open s) (ops s) (next s) (queue s) (local s) (work s) (closes s) (hist s)) else Done (false, s).
Definition set_open : M st unit := fun s => Done (tt, St (sm s) (execs s) true (ops s) (next s) (queue s) (local s) (work s) (closes s) (hist s)).
Definition open_end (i : nat) : M st unit := fun s => Done (tt, St 2 (execs s) (is_open s) (ops s) (next s) (queue s) (local s) (work s) (closes s) (Opens i :: hist s)).
Definition open (i : nat) : prog st res :=
  act* g := open_begin in
  if negb g then Ret Failed
  else
    act* _ := set_open in
    act* _ := open_end i in
    Ret Void.

(** async_op.c async_op_cancel: the compare-exchange *)
Definition cas_cancel (k : nat) : M st bool := with_op k (fun o s =>
  if cancelling o then Done (false, s)
  else Done (true, set_ops s (<[k := Chop (pull o) (push o) (data o) (chan o) (result o) (stale o) (self o) (urefs o) true (begun o) (cans o)]> (ops s)))).
(** channel.c:298-300: the channel, from the operation *)
Definition read_channel (k : nat) : M st unit := with_op k (fun o s => if chan o then Done (tt, s) else Undef).
(** channel.c:312-325 the section under the lock: an operation that was taken off the list has the anchor of its former successor looked at; the list of abandon_pending_operations is used by another thread without the lock. *)
Definition take_off (k : nat) : M st bool := with_op k (fun o s =>
  if decide (k ∈ queue s) then
    let o' := Chop (pull o) (push o) (data o) (chan o) (result o) (Some None) (self o) (urefs o) (cancelling o) (begun o) (cans o) in
    Done (true, St (sm s) (execs s) (is_open s) (<[k := o']> (ops s)) (next s) (filter (.≠ k) (queue s)) (local s) (work s) (closes s) (map (fun x => Withdrawn x false) (option_list (pull o) ++ option_list (push o)) ++ hist s))
  else if decide (k ∈ local s) then Undef
  else match stale o with
       | Some (Some n) => match ops s !! n with Some o' => if freed o' then Undef else Done (false, s) | None => Undef end
       | _ => Done (false, s)
       end).
(** channel.c:327-331 *)
Definition mark_cancelled (k : nat) : M st unit := with_op k (fun o s =>
  match result o with
  | OK => upd_op k (Chop (pull o) (push o) (data o) (chan o) CANCELLED (stale o) (self o) (urefs o) (cancelling o) (begun o) (cans o)) s
  | _ => Done (tt, s)
  end).
Definition schedule (k : nat) (sched : bool) : M st unit := fun s =>
  if sched then Done (tt, St (sm s) (execs s) (is_open s) (ops s) (next s) (queue s) (local s) (work s ++ [k]) (closes s) (hist s)) else Done (tt, s).
(** async_op.c:137-168, channel.c:296-350 cancel_op *)
Definition cancel (k : nat) (sched : bool) : prog st res :=
  act* first := cas_cancel k in
  if negb first then Ret (State false)
  else
    act* _ := read_channel k in
    act* g := exec_begin in
    if negb g then Ret (State true)
    else
      act* off := take_off k in
      act* _ := mark_cancelled k in
      if off : bool then
        act* _ := schedule k sched in
        act* _ := exec_end in
        Ret (State true)
      else
        act* _ := exec_end in
        Ret (State true).
Definition set_cans (o : chop) (n : nat) : chop := Chop (pull o) (push o) (data o) (chan o) (result o) (stale o) (self o) (urefs o) (cancelling o) (begun o) n.
Fixpoint remove_one (k : nat) (l : list nat) : list nat := match l with [] => [] | j :: l => if decide (j = k) then l else j :: remove_one k l end.
Definition calls_ok (m : mode) (o : op) (s : st) : bool :=
  match o with
  | Push _ _ sched | Pull _ sched => match m with Wild => true | _ => sched end
  | Cancel k sched =>
    match ops s !! k with
    | Some c => negb (urefs c =? 0)%nat && match m with Wild => true | NoCancels => false | NoReleases => sched && negb (begun c) && (closes s =? 0)%nat end
    | None => false
    end
  | Release k => match ops s !! k with Some c => (cans c <? urefs c)%nat && match m with NoReleases => false | _ => true end | None => false end
  | Open => true
  | Close => match m with NoReleases => forallb (fun c => (cans c =? 0)%nat) (ops s) | _ => true end
  | Work k => bool_decide (k ∈ work s) && match m with NoReleases => match ops s !! k with Some c => (cans c =? 0)%nat | None => false end | _ => true end
  end.
Definition channel (m : mode) : system st op res := {|
  code := fun i o =>
    match o with
    | Push d alloc sched => request (locked_push d alloc sched)
    | Pull alloc sched => request (locked_pull alloc sched)
    | Cancel k sched => cancel k sched
    | Release k => Ret Void
    | Open => open i
    | Close => close
    | Work k => execute k (Ret Void)
    end;
  calls := fun i o s =>
    if calls_ok m o s then
      let s := add [Called i o] s in
      Some match o with
           | Cancel k _ => match ops s !! k with Some c => set_ops s (<[k := set_cans c (S (cans c))]> (ops s)) | None => s end
           | Release k => match ops s !! k with Some o => set_ops s (<[k := Chop (pull o) (push o) (data o) (chan o) (result o) (stale o) (self o) (pred (urefs o)) (cancelling o) (begun o) (cans o)]> (ops s)) | None => s end
           | Close => St (sm s) (execs s) (is_open s) (ops s) (next s) (queue s) (local s) (work s) (S (closes s)) (hist s)
           | Work k => St (sm s) (execs s) (is_open s) (match ops s !! k with Some o => <[k := Chop (pull o) (push o) (data o) (chan o) (result o) (stale o) (self o) (urefs o) (cancelling o) true (cans o)]> (ops s) | None => ops s end)
                          (next s) (queue s) (local s) (remove_one k (work s)) (closes s) (hist s)
           | _ => s
           end
    else None;
  returns := fun i o r s =>
    let s := add [Returned i o r] s in
    match o with
    | Cancel k _ => match ops s !! k with Some c => set_ops s (<[k := set_cans c (pred (cans c))]> (ops s)) | None => s end
    | Close => St (sm s) (execs s) (is_open s) (ops s) (next s) (queue s) (local s) (work s) (pred (closes s)) (hist s)
    | _ => s
    end;
  env := fun s s' => False;
|}.
Definition start : st := St 0 0 false [] 0 [] [] [] 0 [].
