(** Arrays on the heap of CMem whose elements are not bytes (pointers, structs): an array is one of the heap's structs. *)
From Verif Require Import Common Block CMem.
Local Open Scope cmonad_scope.

(** How a module's struct type [O] includes arrays of [E]. A cell that has not been written is [None]. *)
Class Arr (O E : Type) := { mk_arr : list (option E) -> O; un_arr : O -> option (list (option E)); un_mk_arr a : un_arr (mk_arr a) = Some a }.

Section arr.
Context {O E : Type} `{!Arr O E}.

Definition arr_cells (p : ptr) : M (st O) (list (option E)) :=
  match p with
  | None => undef
  | Some h => let* o := get_obj h in match un_arr o with Some a => ret a | None => undef end
  end.
(** malloc of n cells; [sz] is the number of bytes asked for, None if it overflows size_t. *)
Definition arr_alloc (sz : option nat) (n : nat) : M (st O) ptr :=
  match sz with Some _ => new_obj (mk_arr (replicate n None)) | None => ret None end.
Definition arr_free (p : ptr) : M (st O) unit :=
  match p with None => ret tt | Some h => arr_cells p ;;; free_obj h end.
(** realloc to n cells; as in CMem, it always moves the array. *)
Definition arr_realloc (sz : option nat) (p : ptr) (n : nat) : M (st O) ptr :=
  match sz with
  | None => ret None
  | Some _ =>
    match p with
    | None => new_obj (mk_arr (replicate n None))
    | Some h =>
      let* a := arr_cells p in
      let* q := new_obj (mk_arr (take n a ++ replicate (n - length a) None)) in
      match q with None => ret None | Some _ => free_obj h ;;; ret q end
    end
  end.
(** p[i] and p[i] = v *)
Definition arr_get (p : ptr) (i : nat) : M (st O) E :=
  let* a := arr_cells p in match a !! i with Some (Some v) => ret v | _ => undef end.
Definition arr_set (p : ptr) (i : nat) (v : E) : M (st O) unit :=
  match p with
  | None => undef
  | Some h => let* a := arr_cells p in if decide (i < length a) then set_obj h (mk_arr (<[i := Some v]> a)) else undef
  end.
(** memmove(p + d, p + i, n elements) *)
Definition arr_move (p : ptr) (d i n : nat) : M (st O) unit :=
  match p with
  | None => undef
  | Some h =>
    let* a := arr_cells p in
    if decide (i + n <= length a /\ d + n <= length a) then set_obj h (mk_arr (take d a ++ take n (drop i a) ++ drop (d + n) a)) else undef
  end.
End arr.
