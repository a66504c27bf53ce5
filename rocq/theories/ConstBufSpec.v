(** What CONSTBUFFER promises to its callers: what each call needs the caller to hold, what it answers, and what the caller holds then. *)
From Verif Require Import Common Block CMem Prog MemDataModel MemDataSpec ConstBufModel.
Local Open Scope Z_scope.

(** Things a thread holds: a reference to a constant buffer with these contents; a heap block of its own with these bytes; a writable buffer it alone knows, with this memory. *)
Inductive held := Ref (h : positive) (c : bytes) | Mem (p : positive) (l : bytes) | Writable (h : positive) (b : block).
(** A handle argument: NULL, or a reference the caller holds. A pointer argument: NULL, or a block the caller holds. *)
Notation ref := (option (positive * bytes)).
Definition hold_ref (r : ref) : list held := match r with None => [] | Some (h, c) => [Ref h c] end.
Definition hold_mem (r : ref) : list held := match r with None => [] | Some (p, l) => [Mem p l] end.

Inductive op :=
(* the caller's own memory *)
| Malloc (l : bytes) | Free (p : positive) (l : bytes)
| Create (src : option bytes) (sz : Z)
| CreateFromBuffer (b : option bytes)
| CreateWithMoveMemory (src : ref) (sz : Z)
| CreateWithCustomFree (context : positive) (l : bytes) (at_ : option nat) (sz : Z) (customFreeFunc : bool) (* source is NULL, or context + at_ *)
| CreateFromOffsetAndSize (h : ref) (offset sz : Z)
| CreateFromOffsetAndSizeWithCopy (h : ref) (offset sz : Z)
| IncRef (h : ref) | DecRef (h : ref)
| Read (h : ref)                                     (* GetContent, and a look at all the bytes *)
| ContainSame (l r : ref)
| GetSerializationSize (h : ref)
| ToBuffer (h : ref) (serialized_size : bool)        (* false: the pointer argument is NULL *)
| ToFixedSizeBuffer (h : ref) (destination : ref) (n : Z) (serialized_size : bool)
| FromBuffer (src : ref) (n : Z) (consumed destination : bool)
| CreateWritableHandle (sz : Z)
| Write (h : positive) (b : block) (off : nat) (l : bytes)   (* through the pointer of GetWritableBuffer *)
| GetWritableBufferSize (h : positive) (b : block)
| WritableHandleDecRef (h : positive) (b : block)
| SealWritableHandle (h : positive) (c : bytes).

Inductive res :=
| RUnit | RHandle (h : ptr) | RBytes (l : option bytes) | RBool (b : bool) | RNum (n : Z)
| RToBuffer (r : option (positive * Z)) | RToFixed (r : TO_FIXED_SIZE_BUFFER_RESULT) (n : option Z) | RFrom (r : FROM_BUFFER_RESULT) (d : option (positive * Z)).

Notation handle r := (fst <$> r).
Section run.
Local Open Scope prog_scope.
Definition run (o : op) : code res :=
  match o with
  | Malloc l => let* p := act (malloc (length l)) in
                match p with None => Ret (RHandle None) | Some a => act (store (Some a) 0 (bytes_block l)) ;;; Ret (RHandle (Some a)) end
  | Free p l => act (free (Some p)) ;;; Ret RUnit
  | Create src sz => let* r := CONSTBUFFER_Create src sz in Ret (RHandle r)
  | CreateFromBuffer b => let* r := CONSTBUFFER_CreateFromBuffer b in Ret (RHandle r)
  | CreateWithMoveMemory src sz => let* r := CONSTBUFFER_CreateWithMoveMemory (handle src) sz in Ret (RHandle r)
  | CreateWithCustomFree context l at_ sz func =>
      let* r := CONSTBUFFER_CreateWithCustomFree (match at_ with None => ANull | Some off => ABlock context off end) sz func context in Ret (RHandle r)
  | CreateFromOffsetAndSize h offset sz => let* r := CONSTBUFFER_CreateFromOffsetAndSize (handle h) offset sz in Ret (RHandle r)
  | CreateFromOffsetAndSizeWithCopy h offset sz => let* r := CONSTBUFFER_CreateFromOffsetAndSizeWithCopy (handle h) offset sz in Ret (RHandle r)
  | IncRef h => CONSTBUFFER_IncRef (handle h) ;;; Ret RUnit
  | DecRef h => CONSTBUFFER_DecRef (handle h) ;;; Ret RUnit
  | Read h => let* c := CONSTBUFFER_GetContent (handle h) in
              match c with
              | None => Ret (RBytes None)
              | Some (a, n) => let* l := act (bind (read_addr a (Z.to_nat n)) values) in Ret (RBytes (Some l))
              end
  | ContainSame l r => let* b := CONSTBUFFER_HANDLE_contain_same (handle l) (handle r) in Ret (RBool b)
  | GetSerializationSize h => let* n := CONSTBUFFER_get_serialization_size (handle h) in Ret (RNum n)
  | ToBuffer h out => let* r := CONSTBUFFER_to_buffer (handle h) out in Ret (RToBuffer r)
  | ToFixedSizeBuffer h d n out => let* r := CONSTBUFFER_to_fixed_size_buffer (handle h) (handle d) n out in Ret (RToFixed (fst r) (snd r))
  | FromBuffer src n consumed destination => let* r := CONSTBUFFER_from_buffer (handle src) n consumed destination in Ret (RFrom (fst r) (snd r))
  | CreateWritableHandle sz => let* r := CONSTBUFFER_CreateWritableHandle sz in Ret (RHandle r)
  | Write h b off l => let* a := CONSTBUFFER_GetWritableBuffer (Some h) in act (write_addr (addr_add a off) (bytes_block l)) ;;; Ret RUnit
  | GetWritableBufferSize h b => let* n := CONSTBUFFER_GetWritableBufferSize (Some h) in Ret (RNum n)
  | WritableHandleDecRef h b => CONSTBUFFER_WritableHandleDecRef (Some h) ;;; Ret RUnit
  | SealWritableHandle h c => let* r := CONSTBUFFER_SealWritableHandle (Some h) in Ret (RHandle r)
  end.
End run.

(** What C's types and pointers demand of the arguments. *)
Definition allowed (o : op) : Prop :=
  match o with
  | Create src sz => is_u32 sz /\ match src with None => True | Some l => sz <= Z.of_nat (length l) end
  | CreateWithMoveMemory src sz => is_u32 sz /\ match src with None => True | Some (_, l) => sz <= Z.of_nat (length l) end
  | CreateWithCustomFree _ l at_ sz _ => is_u32 sz /\ match at_ with None => True | Some off => Z.of_nat off + sz <= Z.of_nat (length l) end
  | CreateFromOffsetAndSize _ offset sz | CreateFromOffsetAndSizeWithCopy _ offset sz => is_u32 offset /\ is_u32 sz
  | ToFixedSizeBuffer _ d n _ => is_u32 n /\ match d with None => True | Some (_, l) => n <= Z.of_nat (length l) end
  | FromBuffer src n _ _ => is_u32 n /\ match src with None => True | Some (_, l) => n <= Z.of_nat (length l) /\ all_bytes l end
  | CreateWritableHandle sz => is_u32 sz
  | Write _ b off l => (off + length l <= length b)%nat
  | _ => True
  end.

Definition uses (o : op) : list held :=
  match o with
  | Free p l => [Mem p l]
  | CreateWithMoveMemory src _ => hold_mem src
  | CreateWithCustomFree context l _ _ _ => [Mem context l]
  | CreateFromOffsetAndSize h _ _ | CreateFromOffsetAndSizeWithCopy h _ _ | IncRef h | DecRef h | Read h | GetSerializationSize h | ToBuffer h _ => hold_ref h
  | ContainSame l r => if decide (l = r) then hold_ref l else hold_ref l ++ hold_ref r
  | ToFixedSizeBuffer h d _ _ => hold_ref h ++ hold_mem d
  | FromBuffer src _ _ _ => hold_mem src
  | Write h b _ _ | GetWritableBufferSize h b | WritableHandleDecRef h b => [Writable h b]
  | SealWritableHandle h c => [Writable h (bytes_block c)]
  | _ => []
  end.

(** Bytes [offset, offset + n) of c. *)
Definition slice (offset n : nat) (c : bytes) : bytes := take n (drop offset c).
Definition size_of (c : bytes) : Z := Z.of_nat (length c).
(** A serialised buffer: version 1, the size in four bytes, the contents. *)
Definition serialized (c : bytes) : bytes := 1 :: be_bytes 4 (size_of c) ++ c.
(** What can be read back: a version 1 buffer whose declared contents are all there. *)
Definition parsed (l : bytes) (c : bytes) : Prop := exists rest, l = serialized c ++ rest /\ size_of c <= UINT32_MAX.

Definition new_ref (r : ptr) (c : bytes) (otherwise : list held) : list held := match r with Some h => [Ref h c] | None => otherwise end.
Definition gives (o : op) (r : res) : list held :=
  match o, r with
  | Malloc l, RHandle (Some p) => [Mem p l]
  | Create (Some l) sz, RHandle r => new_ref r (take (Z.to_nat sz) l) []
  | Create None sz, RHandle r => new_ref r [] []
  | CreateFromBuffer (Some l), RHandle r => new_ref r (take (Z.to_nat (size_of l mod UINT32_MOD)) l) []
  | CreateWithMoveMemory (Some (p, l)) sz, RHandle r => new_ref r (take (Z.to_nat sz) l) [Mem p l]
  | CreateWithMoveMemory None sz, RHandle r => new_ref r [] []
  | CreateWithCustomFree context l (Some off) sz _, RHandle r => new_ref r (slice off (Z.to_nat sz) l) [Mem context l]
  | CreateWithCustomFree context l None sz _, RHandle r => new_ref r [] [Mem context l]
  | CreateFromOffsetAndSize (Some (h, c)) offset sz, RHandle r | CreateFromOffsetAndSizeWithCopy (Some (h, c)) offset sz, RHandle r =>
      Ref h c :: new_ref r (slice (Z.to_nat offset) (Z.to_nat sz) c) []
  | IncRef h, _ => hold_ref h ++ hold_ref h
  | Read _, _ | GetSerializationSize _, _ | ContainSame _ _, _ | Write _ _ _ _, _ | GetWritableBufferSize _ _, _ | ToBuffer _ _, _ | ToFixedSizeBuffer _ _ _ _, _ | FromBuffer _ _ _ _, _ =>
      match o, r with
      | Write h b off l, _ => [Writable h (take off b ++ bytes_block l ++ drop (off + length l) b)]
      | ToBuffer (Some (h, c)) _, RToBuffer (Some (p, _)) => [Ref h c; Mem p (serialized c)]
      | ToFixedSizeBuffer (Some (h, c)) (Some (p, l)) _ _, RToFixed TO_FIXED_OK _ => [Ref h c; Mem p (serialized c ++ drop (5 + length c) l)]
      | FromBuffer (Some (p, l)) _ _ _, RFrom FROM_OK (Some (h, n)) => [Mem p l; Ref h (slice 5 (Z.to_nat n - 5) l)]
      | _, _ => uses o
      end
  | CreateWritableHandle sz, RHandle (Some h) => [Writable h (fresh_block (Z.to_nat sz))]
  | SealWritableHandle h c, RHandle (Some h') => [Ref h' c]
  | _, _ => []
  end.

(** The answers. A call that may fail for want of memory alone does so only if an allocation failed (there have been f failures when the call is made, f' in the end). *)
Definition made (r : ptr) (f f' : nat) : Prop := r = None -> (f < f')%nat.
Definition answers (o : op) (r : res) (f f' : nat) : Prop :=
  match o, r with
  | Malloc _, RHandle r | CreateFromBuffer (Some _), RHandle r => made r f f'
  | CreateFromBuffer None, RHandle r => r = None
  | (Free _ _ | IncRef _ | DecRef _ | Write _ _ _ _ | WritableHandleDecRef _ _), RUnit => True
  | Create src sz, RHandle r => if decide (src = None /\ sz <> 0) then r = None else made r f f'
  | CreateWithMoveMemory src sz, RHandle r => if decide (src = None /\ sz <> 0) then r = None else made r f f'
  | CreateWithCustomFree _ _ at_ sz func, RHandle r => if decide (at_ = None /\ sz <> 0 \/ func = false) then r = None else made r f f'
  | CreateFromOffsetAndSize h offset sz, RHandle r =>
      match h with
      | None => r = None
      | Some (h, c) => if decide (offset + sz > size_of c) then r = None
                       else if decide (offset = 0 /\ sz = size_of c) then r = Some h
                       else made r f f'
      end
  | CreateFromOffsetAndSizeWithCopy h offset sz, RHandle r =>
      match h with
      | None => r = None
      | Some (h, c) => if decide (offset + sz > size_of c) then r = None else made r f f'
      end
  | Read h, RBytes l => l = snd <$> h
  | ContainSame l r, RBool b => b = bool_decide (snd <$> l = snd <$> r)
  | GetSerializationSize h, RNum n => n = match h with Some (_, c) => if decide (5 + size_of c <= UINT32_MAX) then 5 + size_of c else 0 | None => 0 end
  | ToBuffer h out, RToBuffer r =>
      match h, out with
      | Some (_, c), true => if decide (5 + size_of c <= UINT32_MAX) then match r with Some (_, n) => n = size_of (serialized c) | None => (f < f')%nat end else r = None
      | _, _ => r = None
      end
  | ToFixedSizeBuffer h d n out, RToFixed r m =>
      match h, d, out with
      | Some (_, c), Some _, true =>
          if decide (5 + size_of c <= UINT32_MAX) then
            m = Some (size_of (serialized c)) /\ r = if decide (size_of (serialized c) <= n) then TO_FIXED_OK else TO_FIXED_INSUFFICIENT_BUFFER
          else m = None /\ r = TO_FIXED_ERROR
      | _, _, _ => m = None /\ r = TO_FIXED_INVALID_ARG
      end
  | FromBuffer src n consumed destination, RFrom r d =>
      match src, consumed, destination with
      | Some (_, l), true, true =>
          if decide (n = 0) then r = FROM_INVALID_ARG /\ d = None
          else match r, d with
               | FROM_OK, Some (_, m) => exists c, parsed (take (Z.to_nat n) l) c /\ m = size_of (serialized c)
               | FROM_ERROR, None => (f < f')%nat /\ exists c, parsed (take (Z.to_nat n) l) c
               | FROM_INVALID_DATA, None => forall c, ~ parsed (take (Z.to_nat n) l) c
               | _, _ => False
               end
      | _, _, _ => r = FROM_INVALID_ARG /\ d = None
      end
  | CreateWritableHandle sz, RHandle r => if decide (sz = 0) then r = None else made r f f'
  | GetWritableBufferSize h b, RNum n => n = Z.of_nat (length b)
  | SealWritableHandle h _, RHandle r => r = Some h
  | _, _ => False
  end.

Definition lib : library cst op res held := Library run allowed uses gives.

(** The heap block that goes with the buffer o. *)
Definition owns (o : cbuf) (p : positive) : Prop := buffer_type o = Moved /\ buffer o = ABlock p 0 \/ buffer_type o = WithCustomFree p.
(** The memory, when the threads hold hs and no call is in progress: what is held is there; every struct is held, or is the original of a view that is there;
    every heap block is held, or goes with a buffer that is there; and there is nothing when nothing is held. *)
Definition accounted (hs : list held) (s : cst) : Prop :=
  (forall h c, Ref h c ∈ hs -> exists o, objs s !! h = Some o /\ size o = size_of c) /\
  (forall p l, Mem p l ∈ hs -> mem s !! p = Some (bytes_block l)) /\
  (forall h b, Writable h b ∈ hs -> exists o, objs s !! h = Some o /\ buffer_type o = Copied b) /\
  (forall h o, objs s !! h = Some o -> (exists c, Ref h c ∈ hs) \/ (exists b, Writable h b ∈ hs) \/ (exists h' o', objs s !! h' = Some o' /\ buffer_type o' = FromOffsetAndSize h)) /\
  (forall p b, mem s !! p = Some b -> (exists l, Mem p l ∈ hs) \/ (exists h o, objs s !! h = Some o /\ owns o p)) /\
  (hs = [] -> mem s = ∅ /\ objs s = ∅).
