(** Model of inc/c_util/two_d_array_ll.h over the heap of CMem. An element of type T is represented by an integer, one cell of a row; [szT] is sizeof(T), [hdr] the size of
    the handle's fields before the flexible array. The reference count of the handle (THANDLE, in c_pal) is not modelled: TWO_D_ARRAY_FREE is what
    happens when the last reference goes. *)
From Verif Require Import Common Block CMem CArr.
Local Open Scope Z_scope.
Local Open Scope cmonad_scope.

(** two_d_array_ll.h:24-31; row_arrays is a flexible array in the same allocation. None: a cell not yet written. *)
Record ddata := DData { rows : Z; cols : Z; row_arrays : list (option ptr) }.
Inductive obj := OTwoD (d : ddata) | OCells (a : list (option Z)).
#[export] Instance obj_arr : Arr obj Z := {| mk_arr := OCells; un_arr o := match o with OCells a => Some a | _ => None end; un_mk_arr a := eq_refl |}.
Notation MM := (M (st obj)).

Definition get_d (h : positive) : MM ddata := let* o := get_obj h in match o with OTwoD d => ret d | _ => undef end.
Definition set_d (h : positive) (d : ddata) : MM unit := get_d h ;;; set_obj h (OTwoD d).
Definition free_d (h : positive) : MM unit := get_d h ;;; free_obj h.
(** two_d_array->row_arrays[i], and = p: outside of the array, or reading an unwritten cell, is undefined behaviour. *)
Definition row_get (h : positive) (i : Z) : MM ptr :=
  let* d := get_d h in match row_arrays d !! Z.to_nat i with Some (Some p) => ret p | _ => undef end.
Definition row_set (h : positive) (i : Z) (p : ptr) : MM unit :=
  let* d := get_d h in
  if decide (Z.to_nat i < length (row_arrays d))%nat then set_d h (DData (rows d) (cols d) (<[Z.to_nat i := Some p]> (row_arrays d))) else undef.

(** malloc_2(n, sz), and the size of a struct with a flexible array of n elements: None if it overflows size_t (c_pal). *)
Definition size_2 (n sz : Z) : option nat := if decide (n * sz <= UINT64_MAX) then Some (Z.to_nat (n * sz)) else None.
Definition size_flex (hdr n sz : Z) : option nat := if decide (hdr + n * sz <= UINT64_MAX) then Some (Z.to_nat (hdr + n * sz)) else None.

(** two_d_array_ll.h:135-138: row_arrays[i] = NULL for i = i .. rows - 1 *)
Fixpoint clear_rows (h : positive) (i n : nat) : MM unit :=
  match n with O => ret tt | S n => row_set h (Z.of_nat i) None ;;; clear_rows h (S i) n end.
(** two_d_array_ll.h:109-145 *)
Definition TWO_D_ARRAY_CREATE (hdr row_size col_size : Z) : MM ptr :=
  if decide (row_size = 0 \/ col_size = 0) then ret None
  else
    match size_flex hdr row_size 8 with
    | None => ret None
    | Some _ =>
      let* result := new_obj (OTwoD (DData 0 0 (replicate (Z.to_nat row_size) None))) in
      match result with
      | None => ret None
      | Some h =>
        let* d := get_d h in
        set_d h (DData row_size col_size (row_arrays d)) ;;;
        clear_rows h 0 (Z.to_nat row_size) ;;;
        ret result
      end
    end.

(** two_d_array_ll.h:98-105 *)
Fixpoint free_rows (h : positive) (i n : nat) : MM unit :=
  match n with
  | O => ret tt
  | S n => let* p := row_get h (Z.of_nat i) in match p with Some _ => arr_free p | None => ret tt end ;;; free_rows h (S i) n
  end.
(** two_d_array_ll.h:86-107, then the struct itself is freed (THANDLE). *)
Definition TWO_D_ARRAY_FREE (two_d_array : ptr) : MM unit :=
  match two_d_array with None => ret tt | Some h => let* d := get_d h in free_rows h 0 (Z.to_nat (rows d)) ;;; free_d h end.

(** two_d_array_ll.h:147-183; true is success (0). *)
Definition TWO_D_ARRAY_FREE_ROW (two_d_array : ptr) (row_index : Z) : MM bool :=
  match two_d_array with
  | None => ret false
  | Some h =>
    let* d := get_d h in
    if rows d <=? row_index then ret false
    else
      let* p := row_get h row_index in
      match p with
      | None => ret false
      | Some _ => arr_free p ;;; row_set h row_index None ;;; ret true
      end
  end.

(** two_d_array_ll.h:186-233 *)
Definition TWO_D_ARRAY_ALLOCATE_NEW_ROW (szT : Z) (two_d_array : ptr) (row_index : Z) : MM bool :=
  match two_d_array with
  | None => ret false
  | Some h =>
    let* d := get_d h in
    if rows d <=? row_index then ret false
    else
      let* p := row_get h row_index in
      match p with
      | Some _ => ret false
      | None =>
        let* new_row := arr_alloc (size_2 (cols d) szT) (Z.to_nat (cols d)) in
        match new_row with
        | None => ret false
        | Some _ => row_set h row_index new_row ;;; ret true
        end
      end
  end.

Inductive get_row_result := GET_ROW_OK | GET_ROW_INVALID_ARGS | GET_ROW_NOT_ALLOCATED.   (* two_d_array_ll.h:15-19 *)
(** two_d_array_ll.h:235-262; [row_ok]: the out pointer is not NULL. The second part of the answer is *row. *)
Definition TWO_D_ARRAY_GET_ROW (two_d_array : ptr) (row_index : Z) (row_ok : bool) : MM (get_row_result * ptr) :=
  match two_d_array with
  | None => ret (GET_ROW_INVALID_ARGS, None)
  | Some h =>
    if negb row_ok then ret (GET_ROW_INVALID_ARGS, None)
    else
      let* d := get_d h in
      if rows d <=? row_index then ret (GET_ROW_INVALID_ARGS, None)
      else let* p := row_get h row_index in match p with None => ret (GET_ROW_NOT_ALLOCATED, None) | Some _ => ret (GET_ROW_OK, p) end
  end.
