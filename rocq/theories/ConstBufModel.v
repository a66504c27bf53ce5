(** Model of src/constbuffer.c, as code that runs beside other threads (Prog): every access to memory other threads may see is one action.
    Simplifications: the fields of a struct that was just allocated, which nobody else has seen, are written in one go; the reference count is an unbounded integer
    (volatile int32_t in C: fewer than 2^31 references are assumed); log output is left out. *)
From Verif Require Import Common Block CMem Prog MemDataModel.
Local Open Scope Z_scope.
Local Open Scope prog_scope.

(** Where alias.buffer points to: NULL, inside the storage[] of a struct, inside a heap block. *)
Inductive addr := ANull | AStorage (h : positive) (off : nat) | ABlock (p : positive) (off : nat).
#[export] Instance addr_eq_dec : EqDecision addr.
Proof. solve_decision. Defined.
(** buffer_type (constbuffer.c:23-29) with the fields that come with it (constbuffer.c:43-65). The custom free function of the model frees the heap block that is its context;
    it may be called only while the block is there. *)
Inductive kind := Copied (storage : block) | Moved | WithCustomFree (context : positive) | FromOffsetAndSize (original : positive).
(** constbuffer.c:33-67 struct CONSTBUFFER_HANDLE_DATA_TAG and its variants *)
Record cbuf := CBuf { buffer : addr; size : Z; buffer_type : kind; count : Z }.
Notation cst := (st cbuf).
Notation code A := (prog cst A).

(** p + n for a pointer. (NULL + n is only computed for n = 0, of a buffer of size 0.) *)
Definition addr_add (a : addr) (n : nat) : addr :=
  match a with ANull => ANull | AStorage h off => AStorage h (off + n) | ABlock p off => ABlock p (off + n) end.
(** The n bytes at a, as read by memcpy or memcmp: nothing is accessed when n is 0. *)
Definition read_addr (a : addr) (n : nat) : M cst block :=
  if decide (n = 0)%nat then ret []
  else match a with
  | ANull => undef
  | AStorage h off => bind (get_obj h) (fun o => match buffer_type o with
                       | Copied b => if decide (off + n <= length b)%nat then ret (take n (drop off b)) else undef
                       | _ => undef
                       end)
  | ABlock p off => load (Some p) off n
  end.
(** memcpy(a, v, length of v): writes the bytes v at a. *)
Definition write_addr (a : addr) (v : block) : M cst unit :=
  if decide (length v = 0)%nat then ret tt
  else match a with
  | ANull => undef
  | AStorage h off => bind (get_obj h) (fun o => match buffer_type o with
                       | Copied b => if decide (off + length v <= length b)%nat
                                     then set_obj h (CBuf (buffer o) (size o) (Copied (take off b ++ v ++ drop (off + length v) b)) (count o))
                                     else undef
                       | _ => undef
                       end)
  | ABlock p off => store (Some p) off v
  end.
(** free((void* )a) *)
Definition free_addr (a : addr) : M cst unit :=
  match a with ANull => ret tt | ABlock p 0%nat => free (Some p) | _ => undef end.
(** Runs block code (memory_data.c) on the heap block p. *)
Definition on_block {A} (p : positive) (m : M block A) : M cst A := fun s =>
  match mem s !! p with
  | Some b => match m b with Done (a, b') => Done (a, St (<[p := b']> (mem s)) (objs s) (oracle s) (fails s)) | Undef => Undef | NoFuel => NoFuel end
  | None => Undef
  end.

(** What a source pointer may point to: memory of the caller that is not part of the heap (these bytes), or heap memory. *)
Inductive source := SMem (l : bytes) | SAddr (a : addr).
Definition read_source (s : source) (n : nat) : M cst block :=
  match s with SMem l => if decide (n <= length l)%nat then ret (bytes_block (take n l)) else undef | SAddr a => read_addr a n end.

(** interlocked_increment / interlocked_decrement of h->count *)
Definition add_count (d : Z) (h : positive) : M cst Z :=
  bind (get_obj h) (fun o => bind (set_obj h (CBuf (buffer o) (size o) (buffer_type o) (count o + d))) (fun _ => ret (count o + d))).

(** A struct as malloc returns it: nothing reads its fields before they are written. *)
Definition blank : cbuf := CBuf ANull 0 (Copied []) 0.

(** constbuffer.c:71-112 CONSTBUFFER_Create_Internal *)
Definition CONSTBUFFER_Create_Internal (src : source) (sz : Z) : code ptr :=
  let* result := act (new_obj blank) in
  match result with
  | None => Ret None
  | Some h =>
    if decide (sz = 0) then act (set_obj h (CBuf ANull sz (Copied []) 1)) ;;; Ret (Some h)
    else let* v := act (read_source src (Z.to_nat sz)) in
         act (set_obj h (CBuf (AStorage h 0) sz (Copied v) 1)) ;;; Ret (Some h)
  end.

(** constbuffer.c:114-131 CONSTBUFFER_Create *)
Definition CONSTBUFFER_Create (src : option bytes) (sz : Z) : code ptr :=
  match src with
  | None => if decide (sz <> 0) then Ret None else CONSTBUFFER_Create_Internal (SAddr ANull) sz
  | Some l => CONSTBUFFER_Create_Internal (SMem l) sz
  end.

(** constbuffer.c:133-150 CONSTBUFFER_CreateFromBuffer: the BUFFER's length and contents, cut to 32 bits *)
Definition CONSTBUFFER_CreateFromBuffer (b : option bytes) : code ptr :=
  match b with
  | None => Ret None
  | Some l => CONSTBUFFER_Create_Internal (SMem l) (u32 (Z.of_nat (length l)))
  end.

(** constbuffer.c:152-184 CONSTBUFFER_CreateWithMoveMemory *)
Definition CONSTBUFFER_CreateWithMoveMemory (src : ptr) (sz : Z) : code ptr :=
  if decide (src = None /\ sz > 0) then Ret None
  else act (new_obj (CBuf (match src with None => ANull | Some p => ABlock p 0 end) sz Moved 1)).

(** constbuffer.c:186-229 CONSTBUFFER_CreateWithCustomFree *)
Definition CONSTBUFFER_CreateWithCustomFree (src : addr) (sz : Z) (customFreeFunc : bool) (context : positive) : code ptr :=
  if decide (src = ANull /\ sz > 0 \/ customFreeFunc = false) then Ret None
  else act (new_obj (CBuf src sz (WithCustomFree context) 1)).

(** The checks of constbuffer.c:235-244 and 289-298: offset + size cannot be more than UINT32_MAX once the third is passed *)
Definition slice_fails (alias_size offset sz : Z) : bool :=
  (offset >? alias_size) || (offset >? UINT32_MAX - sz) || (u32 (offset + sz) >? alias_size).

(** constbuffer.c:231-283 CONSTBUFFER_CreateFromOffsetAndSize. alias never changes, so it is read once. *)
Definition CONSTBUFFER_CreateFromOffsetAndSize (handle : ptr) (offset sz : Z) : code ptr :=
  match handle with
  | None => Ret None
  | Some h =>
    let* o := act (get_obj h) in
    if slice_fails (size o) offset sz then Ret None
    else if decide (offset = 0 /\ sz = size o) then act (add_count 1 h) ;;; Ret (Some h)
    else
      let* result := act (new_obj (CBuf (addr_add (buffer o) (Z.to_nat offset)) sz (FromOffsetAndSize h) 1)) in
      match result with
      | None => Ret None
      | Some r => act (add_count 1 h) ;;; Ret (Some r)
      end
  end.

(** constbuffer.c:285-319 CONSTBUFFER_CreateFromOffsetAndSizeWithCopy *)
Definition CONSTBUFFER_CreateFromOffsetAndSizeWithCopy (handle : ptr) (offset sz : Z) : code ptr :=
  match handle with
  | None => Ret None
  | Some h =>
    let* o := act (get_obj h) in
    if slice_fails (size o) offset sz then Ret None
    else CONSTBUFFER_Create_Internal (SAddr (addr_add (buffer o) (Z.to_nat offset))) sz
  end.

(** constbuffer.c:321-333 CONSTBUFFER_IncRef *)
Definition CONSTBUFFER_IncRef (handle : ptr) : code unit :=
  match handle with None => Ret tt | Some h => act (add_count 1 h) ;;; Ret tt end.

(** constbuffer.c:335-350 CONSTBUFFER_GetContent: the fields of the alias it returns a pointer to *)
Definition CONSTBUFFER_GetContent (handle : ptr) : code (option (addr * Z)) :=
  match handle with None => Ret None | Some h => let* o := act (get_obj h) in Ret (Some (buffer o, size o)) end.

(** constbuffer.c:352-377 CONSTBUFFER_DecRef_internal. The recursion on originalHandle (line 371) is written with the stack of the structs that wait to be freed (line 375). *)
CoFixpoint free_all (stack : list positive) : code unit :=
  match stack with [] => Ret tt | h :: stack' => Act (free_obj h) (fun _ => free_all stack') end.
CoFixpoint DecRef_loop (h : positive) (stack : list positive) : code unit :=
  Act (add_count (-1) h) (fun c =>
  if decide (c = 0) then
    Act (get_obj h) (fun o =>
    match buffer_type o with
    | Moved => Act (free_addr (buffer o)) (fun _ => free_all (h :: stack))
    | WithCustomFree context => Act (free (Some context)) (fun _ => free_all (h :: stack))
    | FromOffsetAndSize original => DecRef_loop original (h :: stack)
    | Copied _ => free_all (h :: stack)
    end)
  else free_all stack).
Definition CONSTBUFFER_DecRef_internal (h : positive) : code unit := DecRef_loop h [].

(** constbuffer.c:379-390 CONSTBUFFER_DecRef *)
Definition CONSTBUFFER_DecRef (handle : ptr) : code unit :=
  match handle with None => Ret tt | Some h => CONSTBUFFER_DecRef_internal h end.

(** memcmp(a, b, n) == 0: the result is defined when the bytes are *)
Definition values (b : block) : M cst bytes := match mapM (fun x => x) b with Some l => ret l | None => undef end.
(** constbuffer.c:393-439 CONSTBUFFER_HANDLE_contain_same *)
Definition CONSTBUFFER_HANDLE_contain_same (left right : ptr) : code bool :=
  match left, right with
  | None, None => Ret true
  | None, Some _ | Some _, None => Ret false
  | Some l, Some r =>
    let* lo := act (get_obj l) in let* ro := act (get_obj r) in
    if decide (size lo <> size ro) then Ret false
    else let* a := act (bind (read_addr (buffer lo) (Z.to_nat (size lo))) values) in
         let* b := act (bind (read_addr (buffer ro) (Z.to_nat (size lo))) values) in
         Ret (bool_decide (a = b))
  end.

(** constbuffer_format.h:10-15, constbuffer_version.h:7 *)
Definition CONSTBUFFER_VERSION_SIZE : Z := 1.
Definition CONSTBUFFER_SIZE_SIZE : Z := 4.
Definition CONSTBUFFER_VERSION_OFFSET : nat := 0.
Definition CONSTBUFFER_SIZE_OFFSET : nat := 1.
Definition CONSTBUFFER_CONTENT_OFFSET : nat := 5.
Definition CONSTBUFFER_VERSION_V1 : Z := 1.

(** constbuffer.c:441-466 CONSTBUFFER_get_serialization_size *)
Definition CONSTBUFFER_get_serialization_size (src : ptr) : code Z :=
  match src with
  | None => Ret 0
  | Some h =>
    let* o := act (get_obj h) in
    if size o >? UINT32_MAX - CONSTBUFFER_VERSION_SIZE - CONSTBUFFER_SIZE_SIZE then Ret 0
    else Ret (u32 (CONSTBUFFER_VERSION_SIZE + CONSTBUFFER_SIZE_SIZE + size o))
  end.

(** The three writes of constbuffer.c:518-524 and 574-580 *)
Definition serialize (p : positive) (o : cbuf) : code unit :=
  act (on_block p (write_uint8_t CONSTBUFFER_VERSION_OFFSET CONSTBUFFER_VERSION_V1)) ;;;
  act (on_block p (write_uint32_t CONSTBUFFER_SIZE_OFFSET (size o))) ;;;
  let* v := act (read_addr (buffer o) (Z.to_nat (size o))) in
  act (write_addr (ABlock p CONSTBUFFER_CONTENT_OFFSET) v).

(** constbuffer.c:474-533 CONSTBUFFER_to_buffer: the pointer and *serialized_size. The alloc function, the caller's or calls_malloc (468-472), is malloc. *)
Definition CONSTBUFFER_to_buffer (src : ptr) (serialized_size : bool) : code (option (positive * Z)) :=
  match src, serialized_size with
  | Some h, true =>
    let* o := act (get_obj h) in
    if UINT32_MAX - CONSTBUFFER_VERSION_SIZE - CONSTBUFFER_SIZE_SIZE <? size o then Ret None
    else
      let* result := act (malloc (Z.to_nat (u32 (CONSTBUFFER_VERSION_SIZE + CONSTBUFFER_SIZE_SIZE + size o)))) in
      match result with
      | None => Ret None
      | Some p => serialize p o ;;; Ret (Some (p, u32 (CONSTBUFFER_VERSION_SIZE + CONSTBUFFER_SIZE_SIZE + size o)))
      end
  | _, _ => Ret None
  end.

Inductive TO_FIXED_SIZE_BUFFER_RESULT := TO_FIXED_OK | TO_FIXED_INVALID_ARG | TO_FIXED_INSUFFICIENT_BUFFER | TO_FIXED_ERROR.
(** constbuffer.c:535-588 CONSTBUFFER_to_fixed_size_buffer: the result and what was stored into *serialized_size, if anything *)
Definition CONSTBUFFER_to_fixed_size_buffer (src destination : ptr) (destination_size : Z) (serialized_size : bool) : code (TO_FIXED_SIZE_BUFFER_RESULT * option Z) :=
  match src, destination, serialized_size with
  | Some h, Some p, true =>
    let* o := act (get_obj h) in
    if UINT32_MAX - (CONSTBUFFER_VERSION_SIZE + CONSTBUFFER_SIZE_SIZE) <? size o then Ret (TO_FIXED_ERROR, None)
    else
      let n := u32 (CONSTBUFFER_VERSION_SIZE + CONSTBUFFER_SIZE_SIZE + size o) in
      if destination_size <? n then Ret (TO_FIXED_INSUFFICIENT_BUFFER, Some n)
      else serialize p o ;;; Ret (TO_FIXED_OK, Some n)
  | _, _, _ => Ret (TO_FIXED_INVALID_ARG, None)
  end.

Inductive FROM_BUFFER_RESULT := FROM_OK | FROM_ERROR | FROM_INVALID_ARG | FROM_INVALID_DATA.
(** constbuffer.c:590-667 CONSTBUFFER_from_buffer: the result, *destination and *consumed when it is FROM_OK. The source is a heap block. *)
Definition CONSTBUFFER_from_buffer (src : ptr) (sz : Z) (consumed destination : bool) : code (FROM_BUFFER_RESULT * option (positive * Z)) :=
  match src, consumed, destination with
  | Some p, true, true =>
    if decide (sz = 0) then Ret (FROM_INVALID_ARG, None)
    else
      let* version := act (on_block p (read_uint8_t CONSTBUFFER_VERSION_OFFSET)) in
      if decide (version <> CONSTBUFFER_VERSION_V1) then Ret (FROM_INVALID_DATA, None)
      else if sz <? CONSTBUFFER_VERSION_SIZE + CONSTBUFFER_SIZE_SIZE then Ret (FROM_INVALID_DATA, None)
      else
        let* content_size := act (on_block p (read_uint32_t CONSTBUFFER_SIZE_OFFSET)) in
        if u32 (sz - (CONSTBUFFER_VERSION_SIZE + CONSTBUFFER_SIZE_SIZE)) <? content_size then Ret (FROM_INVALID_DATA, None)
        else
          let* d := CONSTBUFFER_Create_Internal (SAddr (ABlock p CONSTBUFFER_CONTENT_OFFSET)) content_size in
          match d with
          | None => Ret (FROM_ERROR, None)
          | Some h => Ret (FROM_OK, Some (h, u32 (CONSTBUFFER_VERSION_SIZE + CONSTBUFFER_SIZE_SIZE + content_size)))
          end
  | _, _, _ => Ret (FROM_INVALID_ARG, None)
  end.

(** constbuffer.c:669-702 CONSTBUFFER_CreateWritableHandle *)
Definition CONSTBUFFER_CreateWritableHandle (sz : Z) : code ptr :=
  if decide (sz = 0) then Ret None
  else
    let* result := act (new_obj blank) in
    match result with
    | None => Ret None
    | Some h => act (set_obj h (CBuf (AStorage h 0) sz (Copied (fresh_block (Z.to_nat sz))) 1)) ;;; Ret (Some h)
    end.
(** constbuffer.c:704-719 CONSTBUFFER_GetWritableBuffer: the address of storage *)
Definition CONSTBUFFER_GetWritableBuffer (handle : ptr) : code addr :=
  match handle with None => Ret ANull | Some h => Ret (AStorage h 0) end.
(** constbuffer.c:721-736 CONSTBUFFER_SealWritableHandle: the same pointer *)
Definition CONSTBUFFER_SealWritableHandle (handle : ptr) : code ptr := Ret handle.
(** constbuffer.c:738-750 CONSTBUFFER_WritableHandleIncRef *)
Definition CONSTBUFFER_WritableHandleIncRef (handle : ptr) : code unit :=
  match handle with None => Ret tt | Some h => act (add_count 1 h) ;;; Ret tt end.
(** constbuffer.c:752-768 CONSTBUFFER_WritableHandleDecRef *)
Definition CONSTBUFFER_WritableHandleDecRef (handle : ptr) : code unit :=
  match handle with
  | None => Ret tt
  | Some h => let* c := act (add_count (-1) h) in if decide (c = 0) then act (free_obj h) else Ret tt
  end.
(** constbuffer.c:770-785 CONSTBUFFER_GetWritableBufferSize *)
Definition CONSTBUFFER_GetWritableBufferSize (handle : ptr) : code Z :=
  match handle with None => Ret 0 | Some h => let* o := act (get_obj h) in Ret (size o) end.
