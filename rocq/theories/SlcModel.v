(** src/sliding_window_average_by_count.c used by any number of threads. SlidingModel.v models whole calls, one after the other; here a call is a sequence of atomic actions: taking and releasing
    the lock, and each reading and each writing of one field. A field may only be looked at by a thread that holds the lock and only be changed by one that holds it exclusively, otherwise the outcome
    is undefined (a data race). srw_lock (c_pal): a shared or exclusive lock that is not recursive. int32_t/int64_t arithmetic that leaves its range is undefined.
    The reference count of the THANDLE is left out of [sliding_window]: there the window is disposed of by a call made when no other call is running. [counted_window] adds it. *)
From Coq Require Import SpecFloat.
From Verif Require Import Common Prog Conc SlidingModel RefsModel.
Local Open Scope Z_scope.

(** The calls. [d]: whether handle is the window or NULL. [p]: whether average is not NULL. *)
Inductive op := Add (d : bool) (v : Z) | Get (d p : bool) | Dispose.
Inductive res := Int (r : Z) | Avg (a : option spec_float).    (* 1 stands for MU_FAILURE; Avg None: so does this; Avg (Some a): 0, and *average is a *)
(** What has happened, for the statements. *)
Inductive event :=
| Called (i : nat) (o : op)
| Returned (i : nat) (o : op) (r : res)
| Acts (i : nat) (v : Z).                                      (* the call running in thread i has added v: it releases the lock *)

Record slc := Slc {
  writer : option nat;       (* the lock: the thread that holds it exclusively *)
  readers : list nat;        (* the threads that hold it shared *)
  dead : bool;               (* srw_lock_destroy has been called *)
  win : sliding;             (* the fields *)
  hist : list event;         (* newest first *)
}.
Definition set_lock w r s := Slc w r (dead s) (win s) (hist s).
Definition set_win w s := Slc (writer s) (readers s) (dead s) w (hist s).
Definition set_hist h s := Slc (writer s) (readers s) (dead s) (win s) h.

Definition acquire_exclusive (i : nat) : M slc unit := fun s =>
  if dead s then Undef else match writer s, readers s with None, [] => Done (tt, set_lock (Some i) [] s) | _, _ => NoFuel end.
Definition release_exclusive (i : nat) (v : Z) : M slc unit := fun s =>
  if decide (writer s = Some i) then Done (tt, set_hist (Acts i v :: hist s) (set_lock None (readers s) s)) else Undef.
Definition acquire_shared (i : nat) : M slc unit := fun s =>
  if dead s then Undef else match writer s with None => Done (tt, set_lock None (i :: readers s) s) | _ => NoFuel end.
Definition release_shared (i : nat) : M slc unit := fun s => if decide (i ∈ readers s) then Done (tt, set_lock (writer s) (filter (.≠ i) (readers s)) s) else Undef.
Definition srw_destroy : M slc unit := fun s => match dead s, writer s, readers s with false, None, [] => Done (tt, Slc None [] true (win s) (hist s)) | _, _, _ => Undef end.
Definition may_write (i : nat) (s : slc) : bool := bool_decide (writer s = Some i).
Definition may_read (i : nat) (s : slc) : bool := may_write i s || bool_decide (i ∈ readers s).
(** Reading and writing a field. *)
Definition rd {A} (i : nat) (f : sliding -> A) : M slc A := fun s => if may_read i s then Done (f (win s), s) else Undef.
Definition wr (i : nat) (f : sliding -> sliding) : M slc unit := fun s => if may_write i s then Done (tt, set_win (f (win s)) s) else Undef.
(** counts[k], read and written *)
Definition rd_at (i : nat) (k : Z) : M slc Z := fun s =>
  if may_read i s && (0 <=? k) then match counts (win s) !! Z.to_nat k with Some v => Done (v, s) | None => Undef end else Undef.
Definition set_sum x w := Sliding (window_count w) x (current_count w) (next_available_slot w) (current_average w) (counts w).
Definition set_count x w := Sliding (window_count w) (current_sum w) x (next_available_slot w) (current_average w) (counts w).
Definition set_slot x w := Sliding (window_count w) (current_sum w) (current_count w) x (current_average w) (counts w).
Definition set_average x w := Sliding (window_count w) (current_sum w) (current_count w) (next_available_slot w) x (counts w).
Definition set_counts x w := Sliding (window_count w) (current_sum w) (current_count w) (next_available_slot w) (current_average w) x.
Definition wr_at (i : nat) (k v : Z) : M slc unit := fun s =>
  if may_write i s && (0 <=? k) && (k <? Z.of_nat (length (counts (win s)))) then Done (tt, set_win (set_counts (<[Z.to_nat k := v]> (counts (win s))) (win s)) s) else Undef.
(** Arithmetic: None is undefined. *)
Definition calc (r : option Z) : M slc Z := fun s => match r with Some v => Done (v, s) | None => Undef end.
Definition i64 (v : Z) : option Z := if in_int64 v then Some v else None.
Definition i32 (v : Z) : option Z := if in_int32 v then Some v else None.
Definition rem (a b : Z) : option Z := if b =? 0 then None else Some (Z.rem a b).

(** sliding_window_average_by_count.c:126-135: after the two branches *)
Definition add_end (i : nat) (next_count : Z) : prog slc res :=
  act* slot := rd i next_available_slot in
  act* slot1 := calc (i32 (slot + 1)) in
  act* _ := wr i (set_slot slot1) in
  act* sum := rd i current_sum in
  act* cnt := rd i current_count in
  act* _ := wr i (set_average (double_div (to_double sum) (to_double cnt))) in
  act* _ := release_exclusive i next_count in
  Ret (Int 0).
(** sliding_window_average_by_count.c:90-137 *)
Definition add (i : nat) (d : bool) (next_count : Z) : prog slc res :=
  if negb d then Ret (Int 1)
  else
    act* _ := acquire_exclusive i in
    act* slot := rd i next_available_slot in
    act* wc := rd i window_count in
    act* window_location := calc (rem slot wc) in
    act* slot := rd i next_available_slot in
    act* wc := rd i window_count in
    if wc <=? slot then
      act* old := rd_at i window_location in
      act* delta := calc (i64 (next_count - old)) in
      act* sum := rd i current_sum in
      act* sum1 := calc (i64 (sum + delta)) in
      act* _ := wr i (set_sum sum1) in
      act* _ := wr_at i window_location next_count in
      add_end i next_count
    else
      act* sum := rd i current_sum in
      act* sum1 := calc (i64 (sum + next_count)) in
      act* _ := wr i (set_sum sum1) in
      act* _ := wr_at i window_location next_count in
      act* cnt := rd i current_count in
      act* cnt1 := calc (i64 (cnt + 1)) in
      act* _ := wr i (set_count cnt1) in
      add_end i next_count.
(** sliding_window_average_by_count.c:139-167 *)
Definition get_average (i : nat) (d p : bool) : prog slc res :=
  if negb d || negb p then Ret (Avg None)
  else
    act* _ := acquire_shared i in
    act* a := rd i current_average in
    act* _ := release_shared i in
    Ret (Avg (Some a)).
(** sliding_window_average_by_count.c:27-39 *)
Definition dispose_window : prog slc res :=
  act* _ := srw_destroy in
  Ret (Int 0).

(** The calls running; the values whose addition has been asked for; whether the window has been given up. *)
Fixpoint running (h : list event) : list nat :=
  match h with [] => [] | Called i _ :: h => i :: running h | Returned i _ _ :: h => filter (.≠ i) (running h) | _ :: h => running h end.
Fixpoint asked (h : list event) : nat := match h with [] => 0 | Called _ (Add true _) :: h => S (asked h) | _ :: h => asked h end.
Fixpoint given_up (h : list event) : bool := match h with [] => false | Called _ Dispose :: _ => true | _ :: h => given_up h end.
(** Values so small that the sum of wc of them, and the difference of two, are int64_t, are added, fewer than 2^31 times; the window is disposed of when no call is running, and there are no calls afterwards.
    (C08 has the exact condition on the values for one thread.) *)
Definition may_call (wc : Z) (o : op) (h : list event) : bool :=
  negb (given_up h) &&
  match o with
  | Add true v => (Z.abs v * wc <? 2 ^ 62) && (Z.of_nat (S (asked h)) <? 2 ^ 31)
  | Dispose => bool_decide (running h = [])
  | _ => true
  end.
Definition sliding_window (wc : Z) : system slc op res := {|
  code := fun i o => match o with Add d v => add i d v | Get d p => get_average i d p | Dispose => dispose_window end;
  calls := fun i o s => if may_call wc o (hist s) then Some (set_hist (Called i o :: hist s) s) else None;
  returns := fun i o r s => set_hist (Returned i o r :: hist s) s;
  env := fun _ _ => False;
|}.
(** What sliding_window_average_by_count_create (SlidingModel.v) leaves, with its lock. *)
Definition created (w : sliding) : slc := Slc None [] false w [].

(** With the reference count: THANDLE_INITIALIZE and THANDLE_ASSIGN of the type SLIDING_WINDOW_AVERAGE. Only calls that are given the window appear in it. Users do not call the dispose function.
    sliding_window_average_by_count.c:27-39 is run by the call that gives up the last reference. *)
Definition given_window (o : op) : bool := match o with Add d _ | Get d _ => d | Dispose => false end.
Definition counted_window (wc : Z) : system (counted_state slc) (rop op) (option res) := counted (sliding_window wc) Dispose given_window.
Definition created_window (w : sliding) : counted_state slc := made (created w).
