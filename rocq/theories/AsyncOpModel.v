(** Model of the address arithmetic of src/async_op.c (create and from_context). Addresses are 64-bit unsigned integers; memory is a
    map from addresses to the pieces of pointers stored there: byte i of the stored pointer v is (v, i). async_op_cancel is in AsyncCancelModel.v. *)
From Verif Require Import Common.
Local Open Scope Z_scope.

Notation cells := (Z -> option (Z * Z)).

(** *(void** )a = v and *(void** )a; reading anything but a whole stored pointer is not defined. *)
Definition store_ptr (m : cells) (a v : Z) : cells := fun x => if (a <=? x) && (x <? a + 8) then Some (v, x - a) else m x.
Definition load_ptr (m : cells) (a : Z) : option Z :=
  match m a with
  | Some (v, _) => if forallb (fun i => bool_decide (m (a + i) = Some (v, i))) [0; 1; 2; 3; 4; 5; 6; 7] then Some v else None
  | None => None
  end.

(** sizeof and alignof of CONTEXT_TO_ASYNC_OP, a struct with one pointer: async_op.c:28-31 *)
Definition sizeof_back : Z := 8.
Definition alignof_back : Z := 8.

(** async_op.c:41-42, in uint32_t *)
Definition is_power_of_2 (x : Z) : bool := Z.land x (u32 (x - 1)) =? 0.
(** async_op.c:45-56 *)
Definition get_next_aligned_address (start align : Z) : Z :=
  let m := u32 (start mod align) in u64 (start + u32 ((if m =? 0 then 0 else 1) * u32 (align - m))).
(** async_op.c:59-73 *)
Definition get_prev_aligned_with_size_address (start size align : Z) : Z :=
  let first := u64 (start - size) in let m := u32 (first mod align) in u64 (first - m).

(** async_op.c:82-88: the arguments async_op_create refuses. The subtraction is in size_t. *)
Definition create_refuses (context_size context_align : Z) : bool :=
  (context_align =? 0) || negb (is_power_of_2 context_align) || (u64 (UINT32_MAX - sizeof_back - alignof_back - 1 - 1 - context_align) <? context_size).
(** async_op.c:98-101: how many bytes follow the fields. THANDLE_MALLOC_FLEX is in c_pal; the model assumes the narrowest type (uint32_t) for its argument. *)
Definition extra_size (context_size context_align : Z) : Z := u32 (sizeof_back + alignof_back + context_size + context_align - 1 - 1).

(** What async_op_create leaves behind: the struct is at [op], its bytes after the fields (private_context) are [from, from + extra). *)
Record created := Created { op : Z; from : Z; extra : Z; context : Z; cells_after : cells }.

(** async_op.c:79-135. [block]: what THANDLE_MALLOC_FLEX answers when asked for [extra] bytes after the fields: NULL, or the addresses of the struct and of its
    private_context. The plain fields (cancel, dispose, cancel_state) lie between the two and are in AsyncCancelModel.v. *)
Definition async_op_create (block : Z -> option (Z * Z)) (m : cells) (context_size context_align : Z) : option created :=
  if create_refuses context_size context_align then None
  else
    let extra := extra_size context_size context_align in
    match block extra with
    | None => None
    | Some (op, from) =>
      let temp := get_next_aligned_address from alignof_back in
      let context := get_next_aligned_address (u64 (temp + sizeof_back)) context_align in
      let back := get_prev_aligned_with_size_address context sizeof_back alignof_back in
      Some (Created op from extra context (store_ptr m back op))
    end.

(** async_op.c:171-197: NULL for NULL, otherwise the pointer found before the context ([None]: what is read is not a pointer). *)
Definition async_op_from_context (m : cells) (context : Z) : option Z :=
  if context =? 0 then Some 0
  else
    let prev := u64 (context - sizeof_back) in
    let prev := u64 (prev - prev mod alignof_back) in
    load_ptr m prev.
