(** A C heap for modules that keep their data in malloc'd memory: blocks of bytes, the structs of the module
    under study (type [O]), and an allocator that may fail at any call. Shared by the models of buffer.c, strings.c and others. *)
From Verif Require Import Common Block.
Local Open Scope cmonad_scope.

Notation ptr := (option positive).

(** [mem]: live byte blocks; [objs]: live structs; [oracle]: which of the coming allocations succeed (they all do once
    the list is used up); [fails]: how many allocations have failed so far (only counted, never looked at by code). *)
Record st (O : Type) := St { mem : gmap positive block; objs : gmap positive O; oracle : list bool; fails : nat }.
Arguments St {O} _ _ _ _.
Arguments mem {O} _.
Arguments objs {O} _.
Arguments oracle {O} _.
Arguments fails {O} _.

Section ops.
Context {O : Type}.

Definition alloc_ok : M (st O) bool := fun s =>
  match oracle s with
  | [] => Done (true, s)
  | true :: o => Done (true, St (mem s) (objs s) o (fails s))
  | false :: o => Done (false, St (mem s) (objs s) o (S (fails s)))
  end.

(** malloc(n): NULL, or a new block of n bytes of unspecified contents. *)
Definition malloc (n : nat) : M (st O) ptr :=
  let* ok := alloc_ok in
  if (ok : bool) then fun s => let p := fresh (dom (mem s)) in Done (Some p, St (<[p := fresh_block n]> (mem s)) (objs s) (oracle s) (fails s))
  else ret None.

(** free(p): freeing NULL does nothing; freeing anything that is not a live block is undefined behaviour. *)
Definition free (p : ptr) : M (st O) unit := fun s =>
  match p with
  | None => Done (tt, s)
  | Some l => match mem s !! l with
              | Some _ => Done (tt, St (delete l (mem s)) (objs s) (oracle s) (fails s))
              | None => Undef
              end
  end.

(** The n bytes at p + off (memcpy source): must lie inside a live block. They may be unspecified. *)
Definition load (p : ptr) (off n : nat) : M (st O) block := fun s =>
  match p with
  | Some l => match mem s !! l with
              | Some b => if decide (off + n <= length b) then Done (take n (drop off b), s) else Undef
              | None => Undef
              end
  | None => Undef
  end.

(** Writes these bytes at p + off: must lie inside a live block. *)
Definition store (p : ptr) (off : nat) (v : block) : M (st O) unit := fun s =>
  match p with
  | Some l => match mem s !! l with
              | Some b => if decide (off + length v <= length b)
                          then Done (tt, St (<[l := take off b ++ v ++ drop (off + length v) b]> (mem s)) (objs s) (oracle s) (fails s))
                          else Undef
              | None => Undef
              end
  | None => Undef
  end.

(** memcpy(d + doff, p + off, n) between blocks. Nothing is accessed when n is 0. Overlapping ranges are undefined behaviour. *)
Definition memcpy (d : ptr) (doff : nat) (p : ptr) (off : nat) (n : nat) : M (st O) unit :=
  if decide (n = 0) then ret tt
  else if decide (d = p /\ doff < off + n /\ off < doff + n) then undef
  else let* v := load p off n in store d doff v.

(** memcpy(d + doff, src, n) from an array of the caller that is not part of the heap. *)
Definition memcpy_from (d : ptr) (doff : nat) (src : bytes) (n : nat) : M (st O) unit :=
  if decide (n = 0) then ret tt
  else if decide (n <= length src) then store d doff (bytes_block (take n src)) else undef.

(** realloc(p, n): NULL (old block untouched), or a block of n bytes starting with the old contents, the old block being freed.
    The model always moves the block. *)
Definition realloc (p : ptr) (n : nat) : M (st O) ptr :=
  match p with
  | None => malloc n
  | Some l => fun s =>
    match mem s !! l with
    | None => Undef
    | Some b =>
      (let* q := malloc n in
       match q with
       | None => ret None
       | Some _ => store q 0 (take n b) ;;; free p ;;; ret q
       end) s
    end
  end.

(** c_pal's malloc_flex(base, nmemb, size) / realloc_flex: base + nmemb * size bytes, NULL if that overflows size_t. *)
Definition size_max : Z := UINT64_MAX.
Definition flex (base nmemb size : nat) : option nat :=
  if decide (Z.of_nat base + Z.of_nat nmemb * Z.of_nat size <= size_max)%Z then Some (base + nmemb * size) else None.
Definition malloc_flex (base nmemb size : nat) : M (st O) ptr :=
  match flex base nmemb size with Some n => malloc n | None => ret None end.
Definition realloc_flex (p : ptr) (base nmemb size : nat) : M (st O) ptr :=
  match flex base nmemb size with Some n => realloc p n | None => ret None end.

(** The structs: malloc(sizeof(O)) (initialised in one go), access, free. *)
Definition new_obj (o : O) : M (st O) ptr :=
  let* ok := alloc_ok in
  if (ok : bool) then fun s => let p := fresh (dom (objs s)) in Done (Some p, St (mem s) (<[p := o]> (objs s)) (oracle s) (fails s))
  else ret None.
Definition get_obj (h : positive) : M (st O) O := fun s =>
  match objs s !! h with Some o => Done (o, s) | None => Undef end.
Definition set_obj (h : positive) (o : O) : M (st O) unit := fun s =>
  match objs s !! h with Some _ => Done (tt, St (mem s) (<[h := o]> (objs s)) (oracle s) (fails s)) | None => Undef end.
Definition free_obj (h : positive) : M (st O) unit := fun s =>
  match objs s !! h with Some _ => Done (tt, St (mem s) (delete h (objs s)) (oracle s) (fails s)) | None => Undef end.
End ops.
