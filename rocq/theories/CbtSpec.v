(** What CONSTBUFFER_THANDLE promises to its callers: what each call needs the caller to hold, what it answers, and what the caller holds then. The things held (references, memory, writable buffers) and
    the promises of the calls that constbuffer.c has too are those of ConstBufSpec; here are the calls that promise something else. *)
From Verif Require Import Common Block CMem Prog MemDataModel MemDataSpec ConstBufModel ConstBufSpec CbtModel.
Local Open Scope Z_scope.

(** A writable buffer, or NULL. *)
Notation writable A := (option (positive * A)).
Definition hold_writable (w : writable block) : list held := match w with None => [] | Some (h, b) => [Writable h b] end.
Inductive cop :=
| Common (o : op)                                                  (* any but SealWritableHandle and FromBuffer *)
| FromBufferTo (src : ref) (n : Z) (consumed : bool) (destination : option ref)   (* destination: NULL, or a variable with this handle *)
| Seal (w : writable bytes)
| WritableBuffer (w : writable block)                              (* GetWritableBuffer: is the pointer non-NULL *)
| WritableSize (w : writable block).

Section run.
Local Open Scope prog_scope.
Definition run_common (o : op) : code res :=
  match o with
  | Malloc l => let* p := act (malloc (length l)) in
                match p with None => Ret (RHandle None) | Some a => act (store (Some a) 0 (bytes_block l)) ;;; Ret (RHandle (Some a)) end
  | Free p l => act (free (Some p)) ;;; Ret RUnit
  | Create src sz => let* r := CONSTBUFFER_THANDLE_Create (match src with None => SAddr ANull | Some l => SMem l end) sz in Ret (RHandle r)
  | CreateFromBuffer b => let* r := CONSTBUFFER_THANDLE_CreateFromBuffer b in Ret (RHandle r)
  | CreateWithMoveMemory src sz => let* r := CONSTBUFFER_THANDLE_CreateWithMoveMemory (handle src) sz in Ret (RHandle r)
  | CreateWithCustomFree context l at_ sz func =>
      let* r := CONSTBUFFER_THANDLE_CreateWithCustomFree (match at_ with None => ANull | Some off => ABlock context off end) sz func context in Ret (RHandle r)
  | CreateFromOffsetAndSize h offset sz => let* r := CONSTBUFFER_THANDLE_CreateFromOffsetAndSize (handle h) offset sz in Ret (RHandle r)
  | CreateFromOffsetAndSizeWithCopy h offset sz => let* r := CONSTBUFFER_THANDLE_CreateFromOffsetAndSizeWithCopy (handle h) offset sz in Ret (RHandle r)
  | IncRef h => INC_REF (handle h) ;;; Ret RUnit                   (* THANDLE_INITIALIZE *)
  | DecRef h => DEC_REF (handle h) ;;; Ret RUnit                   (* THANDLE_ASSIGN of NULL *)
  | Read h => let* c := CONSTBUFFER_THANDLE_GetContent (handle h) in
              match c with
              | None => Ret (RBytes None)
              | Some (a, n) => let* l := act (bind (read_addr a (Z.to_nat n)) values) in Ret (RBytes (Some l))
              end
  | ContainSame l r => let* b := CONSTBUFFER_THANDLE_contain_same (handle l) (handle r) in Ret (RBool b)
  | GetSerializationSize h => let* n := CONSTBUFFER_THANDLE_get_serialization_size (handle h) in Ret (RNum n)
  | ToBuffer h out => let* r := CONSTBUFFER_THANDLE_to_buffer (handle h) out in Ret (RToBuffer r)
  | ToFixedSizeBuffer h d n out => let* r := CONSTBUFFER_THANDLE_to_fixed_size_buffer (handle h) (handle d) n out in Ret (RToFixed (fst r) (snd r))
  | CreateWritableHandle sz => let* r := CONSTBUFFER_THANDLE_CreateWritableHandle sz in Ret (RHandle r)
  | Write h b off l => let* a := CONSTBUFFER_THANDLE_GetWritableBuffer (Some h) in act (write_addr (addr_add a off) (bytes_block l)) ;;; Ret RUnit
  | GetWritableBufferSize h b => let* n := CONSTBUFFER_THANDLE_GetWritableBufferSize (Some h) in Ret (RNum n)
  | WritableHandleDecRef h b => WRITABLE_DEC_REF (Some h) ;;; Ret RUnit   (* THANDLE_ASSIGN of NULL *)
  | FromBuffer _ _ _ _ | SealWritableHandle _ _ => Ret RUnit       (* not calls of this interface *)
  end.
Definition crun (o : cop) : code res :=
  match o with
  | Common o => run_common o
  | FromBufferTo src n consumed destination =>
      let* r := CONSTBUFFER_THANDLE_from_buffer (handle src) n consumed (match destination with None => None | Some d => Some (handle d) end) in Ret (RFrom (fst r) (snd r))
  | Seal w => let* r := CONSTBUFFER_THANDLE_SealWritableHandle (handle w) in Ret (RHandle r)
  | WritableBuffer w => let* a := CONSTBUFFER_THANDLE_GetWritableBuffer (handle w) in Ret (RBool (match a with ANull => false | _ => true end))
  | WritableSize w => let* n := CONSTBUFFER_THANDLE_GetWritableBufferSize (handle w) in Ret (RNum n)
  end.
End run.

Definition in_common (o : op) : bool := match o with FromBuffer _ _ _ _ | SealWritableHandle _ _ => false | _ => true end.
Definition callowed (o : cop) : Prop :=
  match o with
  | Common o => in_common o = true /\ allowed o
  | FromBufferTo src n _ _ => is_u32 n /\ match src with None => True | Some (_, l) => n <= Z.of_nat (length l) /\ all_bytes l end
  | _ => True
  end.
Definition hold_destination (d : option ref) : list held := match d with Some r => hold_ref r | None => [] end.
Definition cuses (o : cop) : list held :=
  match o with
  | Common o => uses o
  | FromBufferTo src _ _ d => hold_mem src ++ hold_destination d
  | Seal None => []
  | Seal (Some (h, c)) => [Writable h (bytes_block c)]
  | WritableBuffer w | WritableSize w => hold_writable w
  end.
(** from_buffer: the handle that was in *destination is given up when, and only when, the call succeeds. Seal: the writable buffer stays as it is. *)
Definition cgives (o : cop) (r : res) : list held :=
  match o, r with
  | Common o, _ => gives o r
  | FromBufferTo (Some (p, l)) _ _ _, RFrom FROM_OK (Some (h, n)) => [Mem p l; Ref h (slice 5 (Z.to_nat n - 5) l)]
  | Seal (Some (h, c)), RHandle r => Writable h (bytes_block c) :: new_ref r c []
  | _, _ => cuses o
  end.
Definition canswers (o : cop) (r : res) (f f' : nat) : Prop :=
  match o, r with
  | Common o, _ => answers o r f f'
  | FromBufferTo src n consumed destination, RFrom r d =>
      match src, consumed, destination with
      | Some (_, l), true, Some _ =>
          if decide (n = 0) then r = FROM_INVALID_ARG /\ d = None
          else match r, d with
               | FROM_OK, Some (_, m) => exists c, parsed (take (Z.to_nat n) l) c /\ m = size_of (serialized c)
               | FROM_ERROR, None => (f < f')%nat /\ exists c, parsed (take (Z.to_nat n) l) c
               | FROM_INVALID_DATA, None => forall c, ~ parsed (take (Z.to_nat n) l) c
               | _, _ => False
               end
      | _, _, _ => r = FROM_INVALID_ARG /\ d = None
      end
  | Seal None, RHandle r => r = None
  | Seal (Some _), RHandle r => made r f f'
  | WritableBuffer w, RBool b => b = bool_decide (w <> None)
  | WritableSize w, RNum n => n = match w with None => 0 | Some (_, b) => Z.of_nat (length b) end
  | _, _ => False
  end.

Definition clib : library cst cop res held := Library crun callowed cuses cgives.
