(** Model of Map_ToJSON (src/map.c), over the heap of the STRINGs it builds. *)
From Verif Require Import Common Block CMem CStr StrModel.
Local Open Scope cmonad_scope.

(** handleData->keys[i] and values[i]: strings of the map. They live in memory that Map_ToJSON only reads, so they are taken to lie outside of the heap of STRINGs. *)
Definition cstr (l : list Z) : option csrc := Some (CExt (l ++ [0%Z])).

(** map.c:655-660: the four concatenations, until one fails; [first]: i == 0 *)
Definition add_entry (first : bool) (result key value : ptr) : MS bool :=
  let* c := (if first then ret 0%Z else STRING_concat result (cstr [44%Z])) in
  if decide (c = 0%Z) then
    let* c := STRING_concat_with_STRING result key in
    if decide (c = 0%Z) then
      let* c := STRING_concat result (cstr [58%Z]) in
      if decide (c = 0%Z) then
        let* c := STRING_concat_with_STRING result value in
        ret (bool_decide (c = 0%Z))
      else ret false
    else ret false
  else ret false.

(** map.c:629-676: the loop over the entries that are left; true: breakFor is not set, and result is still the string being built; false: it is set, and result has been deleted. *)
Fixpoint entries_loop (first : bool) (result : ptr) (es : list (list Z * list Z)) : MS bool :=
  match es with
  | [] => ret true
  | (k, v) :: es =>
    let* key := STRING_new_JSON (cstr k) in
    match key with
    | None => STRING_delete result ;;; ret false
    | Some _ =>
      let* value := STRING_new_JSON (cstr v) in
      match value with
      | None => STRING_delete result ;;; STRING_delete key ;;; ret false
      | Some _ =>
        let* ok := add_entry first result key value in
        (if (ok : bool) then ret tt else STRING_delete result) ;;;
        STRING_delete value ;;;
        STRING_delete key ;;;
        if (ok : bool) then entries_loop false result es else ret false
      end
    end
  end.

(** map.c:604-700. [handle]: NULL, or a map with these entries. *)
Definition Map_ToJSON (handle : option (list (list Z * list Z))) : MS ptr :=
  match handle with
  | None => ret None
  | Some es =>
    let* result := STRING_construct (cstr [123%Z]) in
    match result with
    | None => ret None
    | Some _ =>
      let* ok := entries_loop true result es in
      if (ok : bool) then
        let* c := STRING_concat result (cstr [125%Z]) in
        if decide (c = 0%Z) then ret result else STRING_delete result ;;; ret None
      else ret None
    end
  end.
