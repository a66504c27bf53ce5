(** Model of src/sliding_window_average_by_count.c. Every operation runs under the handle's lock, so an execution is a
    sequence of whole operations (SlcModel.v and C58 show that it is). int32_t/int64_t arithmetic that leaves its range is undefined behaviour; doubles are
    IEEE 754 binary64 with round-to-nearest-even, as specified by the standard library's Coq.Floats.SpecFloat. *)
From Coq Require Import SpecFloat.
From Verif Require Import Common Block.
Local Open Scope Z_scope.
Local Open Scope cmonad_scope.

(** sliding_window_average_by_count.c:14-23 (the lock is not represented: see above) *)
Record sliding := Sliding {
  window_count : Z; current_sum : Z; current_count : Z; next_available_slot : Z; current_average : spec_float; counts : list Z }.

(** (double)n, and / on doubles *)
Definition to_double (n : Z) : spec_float := binary_normalize 53 1024 n 0 false.
Definition double_div (a b : spec_float) : spec_float := SFdiv 53 1024 a b.

(** Result of an int64_t / int32_t computation. *)
Definition in_int64 (v : Z) : bool := (- 2 ^ 63 <=? v) && (v <? 2 ^ 63).
Definition in_int32 (v : Z) : bool := (- 2 ^ 31 <=? v) && (v <? 2 ^ 31).
Definition int64 {S} (v : Z) : M S Z := if in_int64 v then ret v else undef.
Definition int32 {S} (v : Z) : M S Z := if in_int32 v then ret v else undef.

(** sliding_window_average_by_count.c:41-88; [alloc_ok]: THANDLE_MALLOC_FLEX succeeds, [lock_ok]: srw_lock_create succeeds. *)
Definition sliding_window_average_by_count_create (alloc_ok lock_ok : bool) (wc : Z) : option sliding :=
  if wc <? 1 then None
  else if negb alloc_ok then None
  else if negb lock_ok then None
  else Some (Sliding wc 0 0 0 (S754_zero false) (replicate (Z.to_nat wc) 0)).

(** sliding_window_average_by_count.c:90-137. The state is the handle; 0 is success. *)
Definition sliding_window_average_by_count_add (next_count : Z) : M (option sliding) Z :=
  let* handle := get in
  match handle with
  | None => ret 1
  | Some h =>
    let window_location := Z.rem (next_available_slot h) (window_count h) in
    let* old := at_ (counts h) (Z.to_nat window_location) in
    let* (sum, cnt) :=
      (if window_count h <=? next_available_slot h then
         let* d := int64 (next_count - old) in
         let* sum := int64 (current_sum h + d) in
         ret (sum, current_count h)
       else
         let* sum := int64 (current_sum h + next_count) in
         let* cnt := int64 (current_count h + 1) in
         ret (sum, cnt)) in
    let* next := int32 (next_available_slot h + 1) in
    put (Some (Sliding (window_count h) sum cnt next (double_div (to_double sum) (to_double cnt)) (<[Z.to_nat window_location := next_count]> (counts h)))) ;;;
    ret 0
  end.

(** sliding_window_average_by_count.c:139-167; [average_ok]: the out pointer is not NULL. None is failure. *)
Definition sliding_window_average_by_count_get (handle : option sliding) (average_ok : bool) : option spec_float :=
  match handle with
  | None => None
  | Some h => if average_ok then Some (current_average h) else None
  end.

(** A handle's life: created once, then any sequence of adds. *)
Fixpoint adds (vs : list Z) : M (option sliding) unit :=
  match vs with
  | [] => ret tt
  | v :: vs => sliding_window_average_by_count_add v ;;; adds vs
  end.
