(** Model of src/constbuffer_thandle.c, as code that runs beside other threads (Prog): every access to memory other threads may see is one action.
    The structs hold what those of constbuffer.c hold, so the types and the accesses to memory are the ones of ConstBufModel (struct CONSTBUFFER_TAG, constbuffer_thandle.c:25-48, is [cbuf]).
    A THANDLE is the struct and its reference count: THANDLE_INC_REF is [add_count 1], and THANDLE_DEC_REF is [add_count (-1)], then dispose and free when the count is 0 (c_pal, not in this repository).
    CONSTBUFFER_THANDLE_WRITABLE_HANDLE_DATA (constbuffer_thandle.c:52-58), a struct with a size and bytes, is a [cbuf] whose buffer is its own data.
    Simplifications: as in ConstBufModel. THANDLE_MOVE changes local variables only and is left out. *)
From Verif Require Import Common Block CMem Prog MemDataModel ConstBufModel.
Local Open Scope Z_scope.
Local Open Scope prog_scope.

(** THANDLE_INC_REF and THANDLE_INITIALIZE/THANDLE_ASSIGN of a handle to an empty variable *)
Definition INC_REF (h : ptr) : code unit :=
  match h with None => Ret tt | Some h => act (add_count 1 h) ;;; Ret tt end.

(** constbuffer_thandle.c:68-91 CONSTBUFFER_dispose, within THANDLE_DEC_REF, which frees the struct after it. dispose of a view releases the original (line 87): this recursion is written with the stack of
    the structs that wait to be freed. *)
CoFixpoint free_structs (stack : list positive) : code unit :=
  match stack with [] => Ret tt | h :: stack' => Act (free_obj h) (fun _ => free_structs stack') end.
CoFixpoint DEC_REF_loop (h : positive) (stack : list positive) : code unit :=
  Act (add_count (-1) h) (fun c =>
  if decide (c = 0) then
    Act (get_obj h) (fun o =>
    match buffer_type o with
    | Moved => Act (free_addr (buffer o)) (fun _ => free_structs (h :: stack))
    | WithCustomFree context => Act (free (Some context)) (fun _ => free_structs (h :: stack))
    | FromOffsetAndSize original => DEC_REF_loop original (h :: stack)
    | Copied _ => free_structs (h :: stack)
    end)
  else free_structs stack).
(** THANDLE_ASSIGN(CONSTBUFFER)(&h, NULL) *)
Definition DEC_REF (h : ptr) : code unit := match h with None => Ret tt | Some h => DEC_REF_loop h [] end.
(** THANDLE_ASSIGN(CONSTBUFFER_THANDLE_WRITABLE_HANDLE_DATA)(&h, NULL), whose dispose (constbuffer_thandle.c:93-97) does nothing *)
Definition WRITABLE_DEC_REF (h : ptr) : code unit :=
  match h with
  | None => Ret tt
  | Some h => let* c := act (add_count (-1) h) in if decide (c = 0) then act (free_obj h) else Ret tt
  end.

Definition is_null (src : source) : bool := match src with SAddr ANull => true | _ => false end.
(** constbuffer_thandle.c:99-141 CONSTBUFFER_THANDLE_Create_Internal. With a NULL source the bytes of data are left as malloc returns them. *)
Definition CONSTBUFFER_THANDLE_Create_Internal (src : source) (sz : Z) : code ptr :=
  let* result := act (new_obj blank) in
  match result with
  | None => Ret None
  | Some h =>
    if decide (sz = 0) then act (set_obj h (CBuf ANull 0 (Copied []) 1)) ;;; Ret (Some h)
    else let* v := act (if is_null src then ret (fresh_block (Z.to_nat sz)) else read_source src (Z.to_nat sz)) in
         act (set_obj h (CBuf (AStorage h 0) sz (Copied v) 1)) ;;; Ret (Some h)
  end.

(** constbuffer_thandle.c:143-163 CONSTBUFFER_THANDLE_Create *)
Definition CONSTBUFFER_THANDLE_Create (src : source) (sz : Z) : code ptr :=
  if decide (is_null src = true /\ sz <> 0) then Ret None else CONSTBUFFER_THANDLE_Create_Internal src sz.

(** constbuffer_thandle.c:166-188 CONSTBUFFER_THANDLE_CreateFromBuffer: the BUFFER's length, cut to 32 bits, and contents *)
Definition CONSTBUFFER_THANDLE_CreateFromBuffer (b : option bytes) : code ptr :=
  match b with
  | None => Ret None
  | Some l => CONSTBUFFER_THANDLE_Create_Internal (SMem l) (u32 (Z.of_nat (length l)))
  end.

(** constbuffer_thandle.c:190-222 CONSTBUFFER_THANDLE_CreateWithMoveMemory *)
Definition CONSTBUFFER_THANDLE_CreateWithMoveMemory (src : ptr) (sz : Z) : code ptr :=
  if decide (src = None /\ sz > 0) then Ret None
  else act (new_obj (CBuf (match src with None => ANull | Some p => ABlock p 0 end) sz Moved 1)).

(** constbuffer_thandle.c:224-269 CONSTBUFFER_THANDLE_CreateWithCustomFree *)
Definition CONSTBUFFER_THANDLE_CreateWithCustomFree (src : addr) (sz : Z) (customFreeFunc : bool) (context : positive) : code ptr :=
  if decide (src = ANull /\ sz > 0 \/ customFreeFunc = false) then Ret None
  else act (new_obj (CBuf src sz (WithCustomFree context) 1)).

(** constbuffer_thandle.c:271-315 CONSTBUFFER_THANDLE_CreateFromOffsetAndSizeWithCopy. alias never changes, so it is read once. *)
Definition CONSTBUFFER_THANDLE_CreateFromOffsetAndSizeWithCopy (handle : ptr) (offset sz : Z) : code ptr :=
  match handle with
  | None => Ret None
  | Some h =>
    let* o := act (get_obj h) in
    if (offset >? size o) || (offset >? UINT32_MAX - sz) || (u32 (offset + sz) >? size o) then Ret None
    else CONSTBUFFER_THANDLE_Create (SAddr (addr_add (buffer o) (Z.to_nat offset))) sz
  end.

(** constbuffer_thandle.c:317-390 CONSTBUFFER_THANDLE_CreateFromOffsetAndSize *)
Definition CONSTBUFFER_THANDLE_CreateFromOffsetAndSize (handle : ptr) (offset sz : Z) : code ptr :=
  match handle with
  | None => Ret None
  | Some h =>
    let* o := act (get_obj h) in
    if (offset >? size o) || (offset >? UINT32_MAX - sz) || (u32 (offset + sz) >? size o) then Ret None
    else if decide (offset = 0 /\ sz = size o) then act (add_count 1 h) ;;; Ret (Some h)
    else
      let* result := act (new_obj (CBuf (addr_add (buffer o) (Z.to_nat offset)) sz (FromOffsetAndSize h) 1)) in
      match result with
      | None => Ret None
      | Some r => act (add_count 1 h) ;;; Ret (Some r)
      end
  end.

(** constbuffer_thandle.c:392-408 CONSTBUFFER_THANDLE_GetContent: the fields of the alias it returns a pointer to *)
Definition CONSTBUFFER_THANDLE_GetContent (handle : ptr) : code (option (addr * Z)) :=
  match handle with None => Ret None | Some h => let* o := act (get_obj h) in Ret (Some (buffer o, size o)) end.

(** constbuffer_thandle.c:410-458 CONSTBUFFER_THANDLE_contain_same *)
Definition CONSTBUFFER_THANDLE_contain_same (left right : ptr) : code bool :=
  match left, right with
  | None, None => Ret true
  | None, Some _ | Some _, None => Ret false
  | Some l, Some r =>
    let* lo := act (get_obj l) in let* ro := act (get_obj r) in
    if decide (size lo <> size ro) then Ret false
    else let* a := act (bind (read_addr (buffer lo) (Z.to_nat (size lo))) values) in
         let* b := act (bind (read_addr (buffer ro) (Z.to_nat (size lo))) values) in
         Ret (bool_decide (a = b))
  end.

(** constbuffer_thandle.c:460-494 CONSTBUFFER_THANDLE_get_serialization_size *)
Definition CONSTBUFFER_THANDLE_get_serialization_size (src : ptr) : code Z :=
  match src with
  | None => Ret 0
  | Some h =>
    let* o := act (get_obj h) in
    if size o >? UINT32_MAX - CONSTBUFFER_VERSION_SIZE - CONSTBUFFER_SIZE_SIZE then Ret 0
    else Ret (u32 (CONSTBUFFER_VERSION_SIZE + CONSTBUFFER_SIZE_SIZE + size o))
  end.

(** The writes of constbuffer_thandle.c:548-558 and 605-612. Line 554 skips a memcpy of 0 bytes, which does nothing. *)
Definition serialize_to (p : positive) (o : cbuf) : code unit :=
  act (on_block p (write_uint8_t CONSTBUFFER_VERSION_OFFSET CONSTBUFFER_VERSION_V1)) ;;;
  act (on_block p (write_uint32_t CONSTBUFFER_SIZE_OFFSET (size o))) ;;;
  let* v := act (read_addr (buffer o) (Z.to_nat (size o))) in
  act (write_addr (ABlock p CONSTBUFFER_CONTENT_OFFSET) v).

(** constbuffer_thandle.c:496-567 CONSTBUFFER_THANDLE_to_buffer: the pointer and *serialized_size. The alloc function, the caller's or calls_malloc (62-66), is malloc. *)
Definition CONSTBUFFER_THANDLE_to_buffer (src : ptr) (serialized_size : bool) : code (option (positive * Z)) :=
  match src, serialized_size with
  | Some h, true =>
    let* o := act (get_obj h) in
    if UINT32_MAX - CONSTBUFFER_VERSION_SIZE - CONSTBUFFER_SIZE_SIZE <? size o then Ret None
    else
      let* result := act (malloc (Z.to_nat (u32 (CONSTBUFFER_VERSION_SIZE + CONSTBUFFER_SIZE_SIZE + size o)))) in
      match result with
      | None => Ret None
      | Some p => serialize_to p o ;;; Ret (Some (p, u32 (CONSTBUFFER_VERSION_SIZE + CONSTBUFFER_SIZE_SIZE + size o)))
      end
  | _, _ => Ret None
  end.

(** constbuffer_thandle.c:569-620 CONSTBUFFER_THANDLE_to_fixed_size_buffer: the result and what was stored into *serialized_size, if anything *)
Definition CONSTBUFFER_THANDLE_to_fixed_size_buffer (src destination : ptr) (destination_size : Z) (serialized_size : bool) : code (TO_FIXED_SIZE_BUFFER_RESULT * option Z) :=
  match src, destination, serialized_size with
  | Some h, Some p, true =>
    let* needed_size := CONSTBUFFER_THANDLE_get_serialization_size (Some h) in
    if decide (needed_size = 0) then Ret (TO_FIXED_ERROR, None)
    else if needed_size >? destination_size then Ret (TO_FIXED_INSUFFICIENT_BUFFER, Some needed_size)
    else let* o := act (get_obj h) in
         serialize_to p o ;;; Ret (TO_FIXED_OK, Some needed_size)
  | _, _, _ => Ret (TO_FIXED_INVALID_ARG, None)
  end.

(** constbuffer_thandle.c:622-695 CONSTBUFFER_THANDLE_from_buffer: the result and, when it is FROM_OK, *destination and *consumed. The source is a heap block.
    destination is NULL, or points to a variable with this handle, which THANDLE_ASSIGN (line 685) releases. *)
Definition CONSTBUFFER_THANDLE_from_buffer (src : ptr) (sz : Z) (consumed : bool) (destination : option ptr) : code (FROM_BUFFER_RESULT * option (positive * Z)) :=
  match src, consumed, destination with
  | Some p, true, Some old =>
    if decide (sz = 0) then Ret (FROM_INVALID_ARG, None)
    else
      let* version := act (on_block p (read_uint8_t CONSTBUFFER_VERSION_OFFSET)) in
      if decide (version <> CONSTBUFFER_VERSION_V1) then Ret (FROM_INVALID_DATA, None)
      else if sz <? CONSTBUFFER_VERSION_SIZE + CONSTBUFFER_SIZE_SIZE then Ret (FROM_INVALID_DATA, None)
      else
        let* content_size := act (on_block p (read_uint32_t CONSTBUFFER_SIZE_OFFSET)) in
        if u32 (sz - (CONSTBUFFER_VERSION_SIZE + CONSTBUFFER_SIZE_SIZE)) <? content_size then Ret (FROM_INVALID_DATA, None)
        else
          let* temp_destination := CONSTBUFFER_THANDLE_Create (SAddr (ABlock p CONSTBUFFER_CONTENT_OFFSET)) content_size in
          match temp_destination with
          | None => Ret (FROM_ERROR, None)
          | Some h =>
            INC_REF (Some h) ;;; DEC_REF old ;;;
            DEC_REF (Some h) ;;;
            Ret (FROM_OK, Some (h, u32 (CONSTBUFFER_VERSION_SIZE + CONSTBUFFER_SIZE_SIZE + content_size)))
          end
  | _, _, _ => Ret (FROM_INVALID_ARG, None)
  end.

(** constbuffer_thandle.c:697-731 CONSTBUFFER_THANDLE_CreateWritableHandle *)
Definition CONSTBUFFER_THANDLE_CreateWritableHandle (sz : Z) : code ptr :=
  if decide (sz = 0) then Ret None
  else
    let* temp_result := act (new_obj blank) in
    match temp_result with
    | None => Ret None
    | Some h =>
      act (set_obj h (CBuf (AStorage h 0) sz (Copied (fresh_block (Z.to_nat sz))) 1)) ;;;
      INC_REF (Some h) ;;;
      WRITABLE_DEC_REF (Some h) ;;;
      Ret (Some h)
    end.
(** constbuffer_thandle.c:733-753 CONSTBUFFER_THANDLE_GetWritableBuffer: the address of data *)
Definition CONSTBUFFER_THANDLE_GetWritableBuffer (handle : ptr) : code addr :=
  match handle with None => Ret ANull | Some h => Ret (AStorage h 0) end.
(** constbuffer_thandle.c:755-785 CONSTBUFFER_THANDLE_SealWritableHandle: a copy of the bytes *)
Definition CONSTBUFFER_THANDLE_SealWritableHandle (handle : ptr) : code ptr :=
  match handle with
  | None => Ret None
  | Some w =>
    let* o := act (get_obj w) in
    let* temp_result := CONSTBUFFER_THANDLE_Create (SAddr (AStorage w 0)) (size o) in
    match temp_result with
    | None => Ret None
    | Some h => INC_REF (Some h) ;;; DEC_REF (Some h) ;;; Ret (Some h)
    end
  end.
(** constbuffer_thandle.c:787-807 CONSTBUFFER_THANDLE_GetWritableBufferSize *)
Definition CONSTBUFFER_THANDLE_GetWritableBufferSize (handle : ptr) : code Z :=
  match handle with None => Ret 0 | Some h => let* o := act (get_obj h) in Ret (size o) end.
