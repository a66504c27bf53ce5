(** src/critical_section.c: a lock in one 32-bit word, for any number of threads.
    The word is touched by interlocked operations only, each one atomic action (sequentially consistent). The functions of c_pal on the address:
    wait_on_address(a, v, UINT32_MAX) looks, in one atomic action, whether the word is still v; if not it returns, if so the thread starts to wait, and the call returns when the thread has
    been woken, or spuriously; wake_by_address_single(a) wakes one waiting thread, any one, if there is one. A NULL argument is told apart from the one word. *)
From Verif Require Import Common Prog Conc.
Local Open Scope Z_scope.

Record cs := Cs {
  word : Z;                              (* the access_value *)
  waiting : list nat;                    (* the threads that wait on it *)
  (* what has happened, for the statements: *)
  inside : list nat;                     (* the threads that critical_section_enter has let in and that have not yet called critical_section_leave *)
  answers : list (nat * (bool * bool) * Z); (* the calls that have returned, with what they returned *)
}.
Definition set_word v s := Cs v (waiting s) (inside s) (answers s).
Definition set_waiting w s := Cs (word s) w (inside s) (answers s).
Definition set_inside l s := Cs (word s) (waiting s) l (answers s).

(** c_pal: returns the old value. *)
Definition interlocked_compare_exchange (new old : Z) : M cs Z := fun s => Done (word s, if word s =? old then set_word new s else s).
Definition interlocked_exchange (new : Z) : M cs Z := fun s => Done (word s, set_word new s).
(** c_pal: wait_on_address, first half: start to wait if the word has this value; second half: return when no longer among the waiting. *)
Definition wait_start (i : nat) (v : Z) : M cs unit := fun s => Done (tt, if word s =? v then set_waiting (waiting s ++ [i]) s else s).
Definition wait_end (i : nat) : M cs unit := fun s => if decide (i ∈ waiting s) then NoFuel else Done (tt, s).
(** c_pal; which one is woken is left open by [wakes] below, which reorders the waiting threads at any time. *)
Definition wake_by_address_single : M cs unit := fun s => Done (tt, set_waiting (tail (waiting s)) s).

(** src/critical_section.c:22-38 *)
CoFixpoint enter_loop (i : nat) : prog cs Z :=
  act* current_val := interlocked_compare_exchange 1 0 in    (* 25 *)
  if current_val =? 0 then Ret 0                             (* 27-31 *)
  else act* _ := wait_start i current_val in                 (* 35 *)
       act* _ := wait_end i in
       enter_loop i.
(** src/critical_section.c:10-43. 1 stands for MU_FAILURE. *)
Definition critical_section_enter (i : nat) (nonnull : bool) : prog cs Z :=
  if negb nonnull then Ret 1 (* 14-19 *) else enter_loop i.
(** src/critical_section.c:45-66 *)
Definition critical_section_leave (nonnull : bool) : prog cs Z :=
  if negb nonnull then Ret 1                                 (* 49-54 *)
  else act* _ := interlocked_exchange 0 in                   (* 58 *)
       act* _ := wake_by_address_single in                   (* 60 *)
       Ret 0 (* 62 *).

(** Calls: (true, p) is critical_section_enter(p), (false, p) is critical_section_leave(p); p says whether the argument is the lock or NULL.
    The lock is left only by a thread that is inside; any thread may enter, even one that is inside already (it waits for itself). *)
Notation op := (bool * bool)%type.
Definition crit : system cs op Z := {|
  code := fun i (o : op) => if o.1 then critical_section_enter i o.2 else critical_section_leave o.2;
  calls := fun i o s => if negb o.1 && o.2 then if decide (i ∈ inside s) then Some (set_inside (filter (.≠ i) (inside s)) s) else None else Some s;
  returns := fun i o r s =>
    let s := Cs (word s) (waiting s) (inside s) ((i, o, r) :: answers s) in
    if o.1 && (r =? 0) then set_inside (i :: inside s) s else s;
  env := fun s s' => (exists i w, waiting s ≡ₚ i :: w /\ s' = set_waiting w s) \/ (exists w, waiting s ≡ₚ w /\ s' = set_waiting w s);
|}.
(** The lock is initialised to 0 by its user. *)
Definition crit_init : cs := Cs 0 [] [] [].
