(** Model of src/buffer.c, function by function, over the heap of CMem. A handle is NULL or the address of a BUFFER struct.
    0 is success, 1 stands for MU_FAILURE. [source] arrays belong to the caller and are not part of the heap: passing a pointer into the
    buffer's own storage as source (a use after realloc in the C code) is outside of the model. *)
From Verif Require Import Common Block CMem.
Local Open Scope cmonad_scope.

(** buffer.c:16-20 *)
Record BUFFER := Buffer { buffer : ptr; size : nat }.
Notation MB := (M (st BUFFER)).

(** buffer.c:23-33 *)
Definition BUFFER_new : MB ptr := new_obj (Buffer None 0).

(** buffer.c:35-57: allocates at least 1 byte. handleptr->buffer is assigned even when malloc fails. *)
Definition BUFFER_safemalloc (h : positive) (n : nat) : MB Z :=
  let* p := malloc (if decide (n = 0) then 1 else n) in
  let* o := get_obj h in
  match p with
  | None => set_obj h (Buffer None (size o)) ;;; ret 1%Z
  | Some _ => set_obj h (Buffer p n) ;;; ret 0%Z
  end.

(** buffer.c:59-95. The struct is malloc'd uninitialised; safemalloc sets both fields (NULL and 0 stand for the unset fields). *)
Definition BUFFER_create (source : option bytes) (n : nat) : MB ptr :=
  match source with
  | None => ret None
  | Some src =>
    let* r := new_obj (Buffer None 0) in
    match r with
    | None => ret None
    | Some h =>
      let* e := BUFFER_safemalloc h n in
      if decide (e <> 0%Z) then free_obj h ;;; ret None
      else let* o := get_obj h in memcpy_from (buffer o) 0 src n ;;; ret r
    end
  end.

(** buffer.c:98-130 *)
Definition BUFFER_create_with_size (n : nat) : MB ptr :=
  let* r := new_obj (Buffer None 0) in
  match r with
  | None => ret None
  | Some h =>
    if decide (n = 0) then set_obj h (Buffer None 0) ;;; ret r
    else
      let* p := malloc n in
      set_obj h (Buffer p n) ;;;
      match p with
      | None => free_obj h ;;; ret None
      | Some _ => ret r
      end
  end.

(** buffer.c:133-146 *)
Definition BUFFER_delete (handle : ptr) : MB unit :=
  match handle with
  | None => ret tt
  | Some h =>
    let* b := get_obj h in
    match buffer b with
    | Some _ => free (buffer b)
    | None => ret tt
    end ;;;
    free_obj h
  end.

(** buffer.c:151-200 *)
Definition BUFFER_build (handle : ptr) (source : option bytes) (n : nat) : MB Z :=
  match handle with
  | None => ret 1%Z
  | Some h =>
    if decide (n = 0) then
      let* b := get_obj h in
      free (buffer b) ;;; set_obj h (Buffer None 0) ;;; ret 0%Z
    else
      match source with
      | None => ret 1%Z
      | Some src =>
        let* b := get_obj h in
        let* newBuffer := realloc (buffer b) n in
        match newBuffer with
        | None => ret 1%Z
        | Some _ => set_obj h (Buffer newBuffer n) ;;; memcpy_from newBuffer 0 src n ;;; ret 0%Z
        end
      end
  end.

(** buffer.c:202-254 *)
Definition BUFFER_append_build (handle : ptr) (source : option bytes) (n : nat) : MB Z :=
  match handle, source with
  | Some h, Some src =>
    if decide (n = 0) then ret 1%Z
    else
      let* b := get_obj h in
      match buffer b with
      | None =>
        let* e := BUFFER_safemalloc h n in
        if decide (e <> 0%Z) then ret 1%Z
        else let* b := get_obj h in memcpy_from (buffer b) 0 src n ;;; ret 0%Z
      | Some _ =>
        let* temp := realloc_flex (buffer b) (size b) n 1 in
        match temp with
        | None => ret 1%Z
        | Some _ =>
          set_obj h (Buffer temp (size b)) ;;;
          memcpy_from temp (size b) src n ;;;
          set_obj h (Buffer temp (size b + n)) ;;; ret 0%Z
        end
      end
  | _, _ => ret 1%Z
  end.

(** buffer.c:259-297. b->buffer is assigned even when malloc fails (it was NULL). *)
Definition BUFFER_pre_build (handle : ptr) (n : nat) : MB Z :=
  match handle with
  | None => ret 1%Z
  | Some h =>
    if decide (n = 0) then ret 1%Z
    else
      let* b := get_obj h in
      match buffer b with
      | Some _ => ret 1%Z
      | None =>
        let* p := malloc n in
        match p with
        | None => set_obj h (Buffer None (size b)) ;;; ret 1%Z
        | Some _ => set_obj h (Buffer p n) ;;; ret 0%Z
        end
      end
  end.

(** buffer.c:300-315: None is failure, Some p is 0 with *content = p. [content_ok]: the out pointer is not NULL. *)
Definition BUFFER_content (handle : ptr) (content_ok : bool) : MB (option ptr) :=
  match handle with
  | None => ret None
  | Some h => if content_ok then let* b := get_obj h in ret (Some (buffer b)) else ret None
  end.

(** buffer.c:319-343 *)
Definition BUFFER_unbuild (handle : ptr) : MB Z :=
  match handle with
  | None => ret 1%Z
  | Some h =>
    let* b := get_obj h in
    match buffer b with
    | Some _ => free (buffer b) ;;; set_obj h (Buffer None 0)
    | None => ret tt
    end ;;; ret 0%Z
  end.

(** buffer.c:346-379 *)
Definition BUFFER_enlarge (handle : ptr) (enlargeSize : nat) : MB Z :=
  match handle with
  | None => ret 1%Z
  | Some h =>
    if decide (enlargeSize = 0) then ret 1%Z
    else
      let* b := get_obj h in
      let* temp := realloc_flex (buffer b) (size b) enlargeSize 1 in
      match temp with
      | None => ret 1%Z
      | Some _ => set_obj h (Buffer temp (size b + enlargeSize)) ;;; ret 0%Z
      end
  end.

(** buffer.c:381-447 *)
Definition BUFFER_shrink (handle : ptr) (decreaseSize : nat) (fromEnd : bool) : MB Z :=
  match handle with
  | None => ret 1%Z
  | Some h =>
    if decide (decreaseSize = 0) then ret 1%Z
    else
      let* b := get_obj h in
      if decide (size b < decreaseSize) then ret 1%Z
      else
        let alloc_size := size b - decreaseSize in
        if decide (alloc_size = 0) then free (buffer b) ;;; set_obj h (Buffer None 0) ;;; ret 0%Z
        else
          let* tmp := malloc alloc_size in
          match tmp with
          | None => ret 1%Z
          | Some _ =>
            memcpy tmp 0 (buffer b) (if fromEnd then 0 else decreaseSize) alloc_size ;;;
            free (buffer b) ;;;
            set_obj h (Buffer tmp alloc_size) ;;; ret 0%Z
          end
  end.

(** buffer.c:450-465: None is failure, Some n is 0 with *size = n. *)
Definition BUFFER_size (handle : ptr) (size_ok : bool) : MB (option nat) :=
  match handle with
  | None => ret None
  | Some h => if size_ok then let* b := get_obj h in ret (Some (size b)) else ret None
  end.

(** buffer.c:468-520 *)
Definition BUFFER_append (handle1 handle2 : ptr) : MB Z :=
  match handle1, handle2 with
  | Some h1, Some h2 =>
    if decide (h1 = h2) then ret 1%Z
    else
      let* b1 := get_obj h1 in
      let* b2 := get_obj h2 in
      match buffer b1, buffer b2 with
      | Some _, Some _ =>
        if decide (size b2 = 0) then ret 0%Z
        else
          let* temp := realloc_flex (buffer b1) (size b1) (size b2) 1 in
          match temp with
          | None => ret 1%Z
          | Some _ =>
            set_obj h1 (Buffer temp (size b1)) ;;;
            memcpy temp (size b1) (buffer b2) 0 (size b2) ;;;
            set_obj h1 (Buffer temp (size b1 + size b2)) ;;; ret 0%Z
          end
      | _, _ => ret 1%Z
      end
  | _, _ => ret 1%Z
  end.

(** buffer.c:522-578 *)
Definition BUFFER_prepend (handle1 handle2 : ptr) : MB Z :=
  match handle1, handle2 with
  | Some h1, Some h2 =>
    if decide (h1 = h2) then ret 1%Z
    else
      let* b1 := get_obj h1 in
      let* b2 := get_obj h2 in
      match buffer b1, buffer b2 with
      | Some _, Some _ =>
        if decide (size b2 = 0) then ret 0%Z
        else
          let* temp := malloc_flex (size b1) (size b2) 1 in
          match temp with
          | None => ret 1%Z
          | Some _ =>
            memcpy temp 0 (buffer b2) 0 (size b2) ;;;
            memcpy temp (size b2) (buffer b1) 0 (size b1) ;;;
            free (buffer b1) ;;;
            set_obj h1 (Buffer temp (size b1 + size b2)) ;;; ret 0%Z
          end
      | _, _ => ret 1%Z
      end
  | _, _ => ret 1%Z
  end.

(** buffer.c:592-597: the loop of BUFFER_fill; [todo] iterations are left, the next one is [index]. *)
Fixpoint fill_loop (p : ptr) (index todo : nat) (fill_char : Z) : MB unit :=
  match todo with
  | O => ret tt
  | S todo => store p index [Some fill_char] ;;; fill_loop p (S index) todo fill_char
  end.
(** buffer.c:580-601 *)
Definition BUFFER_fill (handle : ptr) (fill_char : Z) : MB Z :=
  match handle with
  | None => ret 1%Z
  | Some h => let* b := get_obj h in fill_loop (buffer b) 0 (size b) fill_char ;;; ret 0%Z
  end.

(** buffer.c:605-619 *)
Definition BUFFER_u_char (handle : ptr) : MB ptr :=
  match handle with
  | None => ret None
  | Some h => let* b := get_obj h in ret (if decide (size b = 0) then None else buffer b)
  end.

(** buffer.c:622-636 *)
Definition BUFFER_length (handle : ptr) : MB nat :=
  match handle with
  | None => ret 0
  | Some h => let* b := get_obj h in ret (size b)
  end.

(** buffer.c:638-676 *)
Definition BUFFER_clone (handle : ptr) : MB ptr :=
  match handle with
  | None => ret None
  | Some h =>
    let* sb := get_obj h in
    let* r := new_obj (Buffer None 0) in
    match r with
    | None => ret None
    | Some h' =>
      let* e := BUFFER_safemalloc h' (size sb) in
      if decide (e <> 0%Z) then free_obj h' ;;; ret None
      else
        let* b := get_obj h' in
        memcpy (buffer b) 0 (buffer sb) 0 (size sb) ;;;
        set_obj h' (Buffer (buffer b) (size sb)) ;;; ret r
    end
  end.
