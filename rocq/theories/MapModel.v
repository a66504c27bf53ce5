(** Model of src/map.c over the heap of CMem: the struct, the two arrays of char*, and a block per string. *)
From Verif Require Import Common Block CMem CStr CArr.
Local Open Scope cmonad_scope.

(** A MAP_FILTER_CALLBACK: what it answers for a key and a value; true stands for a non-zero return (reject). Simplification: a filter is
    a function of the two strings; it does not call back into the map. *)
Notation filt := (list Z -> list Z -> bool).
(** MAP_HANDLE_DATA, map.c:20-26. *)
Record mdata := MData { keys : ptr; values : ptr; count : nat; filter : option filt }.
Inductive obj := OMap (m : mdata) | OArr (a : list (option ptr)).
#[export] Instance obj_arr : Arr obj ptr := {| mk_arr := OArr; un_arr o := match o with OArr a => Some a | _ => None end; un_mk_arr a := eq_refl |}.
Notation MM := (M (st obj)).
Inductive map_result := MAP_OK | MAP_ERROR | MAP_INVALIDARG | MAP_KEYEXISTS | MAP_KEYNOTFOUND | MAP_FILTER_REJECT.   (* inc/c_util/map.h:30-37 *)

Definition get_map (h : positive) : MM mdata := let* o := get_obj h in match o with OMap m => ret m | _ => undef end.
Definition set_map (h : positive) (m : mdata) : MM unit := get_map h ;;; set_obj h (OMap m).
Definition free_map (h : positive) : MM unit := get_map h ;;; free_obj h.

(** c_pal's sprintf_char("%s", c): a new string equal to c, or NULL. It is built on vsnprintf, whose int result cannot tell more than INT_MAX characters. *)
Definition sprintf_s (c : csrc) : MM ptr :=
  let* n := strlen c in
  if decide (INT32_MAX < Z.of_nat n)%Z then ret None
  else let* p := malloc (n + 1) in match p with None => ret None | Some _ => strcpy_n p 0 c 0 (n + 1) ;;; ret p end.
(** free(p) of a string held by the map *)
Definition free_s (p : ptr) : MM unit := free p.
(** A const char* read from one of the arrays. *)
Definition src_of (p : ptr) : MM csrc := match p with Some p => ret (CPtr p) | None => undef end.

(** map.c:30-44 *)
Definition Map_Create (f : option filt) : MM ptr := new_obj (OMap (MData None None 0 f)).

(** free(arr[0]), ..., free(arr[n - 1]): map.c:96-99 and 152-155 *)
Fixpoint free_from (a : ptr) (i n : nat) : MM unit :=
  match n with 0 => ret tt | S n => let* p := arr_get a i in free_s p ;;; free_from a (S i) n end.
(** map.c:55-59 *)
Fixpoint free_both (m : mdata) (i n : nat) : MM unit :=
  match n with
  | 0 => ret tt
  | S n => let* k := arr_get (keys m) i in free_s k ;;; let* v := arr_get (values m) i in free_s v ;;; free_both m (S i) n
  end.
(** map.c:46-64 *)
Definition Map_Destroy (handle : ptr) : MM unit :=
  match handle with
  | None => ret tt
  | Some h => let* m := get_map h in free_both m 0 (count m) ;;; arr_free (keys m) ;;; arr_free (values m) ;;; free_map h
  end.

(** map.c:81-87: the copying loop; answers the i it stopped at. *)
Fixpoint clone_loop (source result : ptr) (i n : nat) : MM nat :=
  match n with
  | 0 => ret i
  | S n =>
    let* c := arr_get source i in
    let* c := src_of c in
    let* p := sprintf_s c in
    arr_set result i p ;;;
    match p with None => ret i | Some _ => clone_loop source result (S i) n end
  end.
(** map.c:68-105 *)
Definition Map_CloneVector (source : ptr) (cnt : nat) : MM ptr :=
  let* result := arr_alloc (flex 0 cnt 8) cnt in
  match result with
  | None => ret None
  | Some _ =>
    let* i := clone_loop source result 0 cnt in
    if decide (i = cnt) then ret result else free_from result 0 i ;;; arr_free result ;;; ret None
  end.
(** map.c:108-168. Simplification: the fields are written when their values are known, in one go; the struct is malloc'd first as in the code. *)
Definition Map_Clone (handle : ptr) : MM ptr :=
  match handle with
  | None => ret None
  | Some h =>
    let* m := get_map h in
    let* r := new_obj (OMap (MData None None 0 None)) in
    match r with
    | None => ret None
    | Some h' =>
      if decide (count m = 0) then ret r
      else
        let* ks := Map_CloneVector (keys m) (count m) in
        match ks with
        | None => free_map h' ;;; ret None
        | Some _ =>
          let* vs := Map_CloneVector (values m) (count m) in
          match vs with
          | None => free_from ks 0 (count m) ;;; arr_free ks ;;; free_map h' ;;; ret None
          | Some _ => set_map h' (MData ks vs (count m) (filter m)) ;;; ret r
          end
        end
    end
  end.

(** map.c:170-218; true is success *)
Definition Map_IncreaseStorageKeysValues (h : positive) : MM bool :=
  let* m := get_map h in
  let* newKeys := arr_realloc (flex 8 (count m) 8) (keys m) (count m + 1) in
  match newKeys with
  | None => ret false
  | Some _ =>
    set_map h (MData newKeys (values m) (count m) (filter m)) ;;;
    arr_set newKeys (count m) None ;;;
    let* newValues := arr_realloc (flex 8 (count m) 8) (values m) (count m + 1) in
    match newValues with
    | None =>
      (if decide (count m = 0) then arr_free newKeys ;;; set_map h (MData None (values m) (count m) (filter m))
       else
         let* undoneKeys := arr_realloc (flex 0 (count m) 8) newKeys (count m) in
         match undoneKeys with
         | None => ret tt
         | Some _ => set_map h (MData undoneKeys (values m) (count m) (filter m))
         end) ;;; ret false
    | Some _ =>
      set_map h (MData newKeys newValues (count m) (filter m)) ;;;
      arr_set newValues (count m) None ;;;
      set_map h (MData newKeys newValues (count m + 1) (filter m)) ;;;
      ret true
    end
  end.

(** map.c:220-259 *)
Definition Map_DecreaseStorageKeysValues (h : positive) : MM unit :=
  let* m := get_map h in
  if decide (count m = 1) then
    arr_free (keys m) ;;; arr_free (values m) ;;; set_map h (MData None None 0 None)
  else
    let* undoneKeys := arr_realloc (flex 0 (count m - 1) 8) (keys m) (count m - 1) in
    let ks := match undoneKeys with None => keys m | Some _ => undoneKeys end in
    set_map h (MData ks (values m) (count m) (filter m)) ;;;
    let* undoneValues := arr_realloc (flex 0 (count m - 1) 8) (values m) (count m - 1) in
    let vs := match undoneValues with None => values m | Some _ => undoneValues end in
    set_map h (MData ks vs (count m - 1) (filter m)).

(** map.c:272-279 and 295-302: the index of the first string equal to c *)
Fixpoint find_loop (a : ptr) (c : csrc) (i n : nat) : MM (option nat) :=
  match n with
  | 0 => ret None
  | S n =>
    let* p := arr_get a i in
    let* k := src_of p in
    let* z := strcmp k c in
    if decide (z = 0%Z) then ret (Some i) else find_loop a c (S i) n
  end.
(** map.c:261-282 and 284-305; the answer is the index whereIsIt - handleData->keys (values) *)
Definition findKey (m : mdata) (key : csrc) : MM (option nat) :=
  match keys m with None => ret None | Some _ => find_loop (keys m) key 0 (count m) end.
Definition findValue (m : mdata) (value : csrc) : MM (option nat) :=
  match values m with None => ret None | Some _ => find_loop (values m) value 0 (count m) end.

(** map.c:307-338; true is success *)
Definition insertNewKeyValue (h : positive) (key value : csrc) : MM bool :=
  let* ok := Map_IncreaseStorageKeysValues h in
  if negb ok then ret false
  else
    let* m := get_map h in
    let* k := sprintf_s key in
    arr_set (keys m) (count m - 1) k ;;;
    match k with
    | None => Map_DecreaseStorageKeysValues h ;;; ret false
    | Some _ =>
      let* v := sprintf_s value in
      arr_set (values m) (count m - 1) v ;;;
      match v with
      | None => let* k' := arr_get (keys m) (count m - 1) in free_s k' ;;; Map_DecreaseStorageKeysValues h ;;; ret false
      | Some _ => ret true
      end
    end.

(** Calling the filter, map.c:366 and 410: the strings it is given, cut at their 0. *)
Definition text_of (c : csrc) : MM (list Z) :=
  let* n := strlen c in let* b := cells c in
  match mapM id (take n b) with Some l => ret l | None => undef end.
Definition rejected (m : mdata) (key value : csrc) : MM bool :=
  match filter m with None => ret false | Some f => let* k := text_of key in let* v := text_of value in ret (f k v) end.

(** map.c:340-388 *)
Definition Map_Add (handle : ptr) (key value : option csrc) : MM map_result :=
  match handle, key, value with
  | Some h, Some key, Some value =>
    let* m := get_map h in
    let* w := findKey m key in
    match w with
    | Some _ => ret MAP_KEYEXISTS
    | None =>
      let* rej := rejected m key value in
      if (rej : bool) then ret MAP_FILTER_REJECT
      else let* ok := insertNewKeyValue h key value in ret (if (ok : bool) then MAP_OK else MAP_ERROR)
    end
  | _, _, _ => ret MAP_INVALIDARG
  end.

(** map.c:390-457 *)
Definition Map_AddOrUpdate (handle : ptr) (key value : option csrc) : MM map_result :=
  match handle, key, value with
  | Some h, Some key, Some value =>
    let* m := get_map h in
    let* rej := rejected m key value in
    if (rej : bool) then ret MAP_FILTER_REJECT
    else
      let* w := findKey m key in
      match w with
      | None => let* ok := insertNewKeyValue h key value in ret (if (ok : bool) then MAP_OK else MAP_ERROR)
      | Some index =>
        let* valueLength := strlen value in
        let* old := arr_get (values m) index in
        let* newValue := realloc_flex old 1 valueLength 1 in
        match newValue with
        | None => ret MAP_ERROR
        | Some _ => strcpy_n newValue 0 value 0 (valueLength + 1) ;;; arr_set (values m) index newValue ;;; ret MAP_OK
        end
      end
  | _, _, _ => ret MAP_INVALIDARG
  end.

(** map.c:459-495 *)
Definition Map_Delete (handle : ptr) (key : option csrc) : MM map_result :=
  match handle, key with
  | Some h, Some key =>
    let* m := get_map h in
    let* w := findKey m key in
    match w with
    | None => ret MAP_KEYNOTFOUND
    | Some index =>
      let* k := arr_get (keys m) index in free_s k ;;;
      let* v := arr_get (values m) index in free_s v ;;;
      arr_move (keys m) index (index + 1) (count m - index - 1) ;;;
      arr_move (values m) index (index + 1) (count m - index - 1) ;;;
      Map_DecreaseStorageKeysValues h ;;;
      ret MAP_OK
    end
  | _, _ => ret MAP_INVALIDARG
  end.

(** map.c:497-519 and 521-543. [out]: the bool* argument is not NULL; the answer comes with what is written to it. *)
Definition Map_ContainsKey (handle : ptr) (key : option csrc) (out : bool) : MM (map_result * option bool) :=
  match handle, key, out with
  | Some h, Some key, true => let* m := get_map h in let* w := findKey m key in ret (MAP_OK, Some (bool_decide (is_Some w)))
  | _, _, _ => ret (MAP_INVALIDARG, None)
  end.
Definition Map_ContainsValue (handle : ptr) (value : option csrc) (out : bool) : MM (map_result * option bool) :=
  match handle, value, out with
  | Some h, Some value, true => let* m := get_map h in let* w := findValue m value in ret (MAP_OK, Some (bool_decide (is_Some w)))
  | _, _, _ => ret (MAP_INVALIDARG, None)
  end.

(** map.c:545-574 *)
Definition Map_GetValueFromKey (handle : ptr) (key : option csrc) : MM ptr :=
  match handle, key with
  | Some h, Some key =>
    let* m := get_map h in
    let* w := findKey m key in
    match w with None => ret None | Some index => arr_get (values m) index end
  | _, _ => ret None
  end.

(** map.c:576-602. [out]: none of the three pointers to write to is NULL. *)
Definition Map_GetInternals (handle : ptr) (out : bool) : MM (map_result * option (ptr * ptr * nat)) :=
  match handle, out with
  | Some h, true => let* m := get_map h in ret (MAP_OK, Some (keys m, values m, count m))
  | _, _ => ret (MAP_INVALIDARG, None)
  end.
