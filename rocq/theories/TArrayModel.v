(** Model of inc/c_util/tarray_ll.h over the heap of CMem. An element of type T is represented by an integer, one cell of an array; [szT] is sizeof(T).
    The reference count of the handle (THANDLE, in c_pal) is not modelled: TARRAY_FREE is what happens when the last reference goes. *)
From Verif Require Import Common Block CMem CArr.
Local Open Scope Z_scope.
Local Open Scope cmonad_scope.

(** The struct of TARRAY_DEFINE_STRUCT_TYPE, tarray_ll.h:24-33; [cleanup]: there is a cleanup function. *)
Record tdata := TData { arr : ptr; capacity : Z; cleanup : bool }.
Inductive obj := OTarray (t : tdata) | OCells (a : list (option Z)).
#[export] Instance obj_arr : Arr obj Z := {| mk_arr := OCells; un_arr o := match o with OCells a => Some a | _ => None end; un_mk_arr a := eq_refl |}.
Notation MM := (M (st obj)).

Definition get_t (h : positive) : MM tdata := let* o := get_obj h in match o with OTarray t => ret t | _ => undef end.
Definition set_t (h : positive) (t : tdata) : MM unit := get_t h ;;; set_obj h (OTarray t).
Definition free_t (h : positive) : MM unit := get_t h ;;; free_obj h.

(** c_pal's malloc_2(n, sz) and realloc_2(p, n, sz): n * sz bytes, NULL if that overflows size_t. *)
Definition size_2 (n sz : Z) : option nat := if decide (n * sz <= UINT64_MAX) then Some (Z.to_nat (n * sz)) else None.

(** tarray_ll.h:104-148 (and 152-172: the other constructors call it). The struct's fields are set once the array exists. *)
Definition TARRAY_CREATE_WITH_CAPACITY_AND_CLEANUP (szT cap : Z) (cl : bool) : MM ptr :=
  if decide (cap = 0) then ret None
  else
    let* result := new_obj (OTarray (TData None 0 false)) in
    match result with
    | None => ret None
    | Some h =>
      let* p := arr_alloc (size_2 cap szT) (Z.to_nat cap) in
      match p with
      | None => free_t h ;;; ret None
      | Some _ => set_t h (TData p cap cl) ;;; ret result
      end
    end.
(** tarray_ll.h:168-172 *)
Definition TARRAY_CREATE (szT : Z) : MM ptr := TARRAY_CREATE_WITH_CAPACITY_AND_CLEANUP szT 1 false.

(** tarray_ll.h:83-100, then the struct itself is freed (THANDLE). Answers the cells that the cleanup function is called with, if there is one. *)
Definition TARRAY_FREE (tarray : ptr) : MM (option (list (option Z))) :=
  match tarray with
  | None => ret None
  | Some h =>
    let* t := get_t h in
    let* seen := (if cleanup t then let* a := arr_cells (arr t) in ret (Some a) else ret None) in
    arr_free (arr t) ;;; free_t h ;;; ret seen
  end.

(** tarray_ll.h:212-215: do new_capacity *= 2; while (new_capacity < capacity), in uint32_t. *)
Fixpoint double_until (fuel : nat) (new_capacity cap : Z) : option Z :=
  match fuel with
  | O => None
  | S fuel => let new_capacity := u32 (new_capacity * 2) in if new_capacity <? cap then double_until fuel new_capacity cap else Some new_capacity
  end.
(** tarray_ll.h:181-235; true is success (0). *)
Definition TARRAY_ENSURE_CAPACITY (szT : Z) (tarray : ptr) (cap : Z) : MM bool :=
  match tarray with
  | None => ret false
  | Some h =>
    let* t := get_t h in
    if cap <=? capacity t then ret true
    else if u32 (Z.shiftl 1 31) <? cap then ret false
    else
      match double_until 40 (capacity t) cap with
      | None => nofuel
      | Some n =>
        let* temp := arr_realloc (size_2 n szT) (arr t) (Z.to_nat n) in
        match temp with
        | None => ret false
        | Some _ => set_t h (TData (arr t) n (cleanup t)) ;;; set_t h (TData temp n (cleanup t)) ;;; ret true
        end
      end
  end.

(** The user's accesses: tarray->arr[i], and tarray->arr[i] = v. *)
Definition elem_get (h : positive) (i : nat) : MM Z := let* t := get_t h in arr_get (arr t) i.
Definition elem_set (h : positive) (i : nat) (v : Z) : MM unit := let* t := get_t h in arr_set (arr t) i v.
