(** constbuffer_array: reference counted arrays of CONSTBUFFER_HANDLEs (src/constbuffer_array.c).
    Handles are numbers. CONSTBUFFER itself (modelled in ConstBufModel) appears here as a reference count and a content: the reference that a buffer made by
    CONSTBUFFER_CreateFromOffsetAndSize keeps on the buffer it was made from is left out, and a buffer whose count is 0 may not be used.
    One thread. The handles in an array passed by the caller are not NULL. *)
From Verif Require Import Common.
Local Open Scope cm.
Local Open Scope Z_scope.

(** constbuffer_array.c:25,27 custom_free and its context: NULL, constbuffer_array_move_buffers_free, constbuffer_array_buffer_index_and_count_free *)
Inductive freer := NoFree | FreeMoved (context : nat) | FreeView (context : nat).
(** What the member buffers points at: a slot of the buffers_memory of an array, or a slot of a block obtained from malloc *)
Inductive place := InNode (a off : nat) | InBlock (k off : nat).
(** constbuffer_array.c:22-29 CONSTBUFFER_ARRAY_HANDLE_DATA, with its reference count; a slot of buffers_memory that was not written is None *)
Record node := Node { nref : nat; nBuffers : Z; custom_free : freer; buffers : place; buffers_memory : list (option nat) }.
(** A cell of a block obtained from malloc: the handle of a buffer, of an array, a uint32_t written by write_uint32_t, a byte *)
Inductive cell := Buf (b : nat) | Arr (a : nat) | Word (z : Z) | Byte (z : Z).
Global Instance freer_eq_dec : EqDecision freer.
Proof. solve_decision. Defined.
Global Instance place_eq_dec : EqDecision place.
Proof. solve_decision. Defined.
Global Instance cell_eq_dec : EqDecision cell.
Proof. solve_decision. Defined.
(** The heap: reference count and content of every CONSTBUFFER (count 0: freed or not yet made), the arrays and blocks that are allocated, the next unused
    handles, the outcomes of the next allocations (true: it succeeds; the ones after the end of the list succeed), and how many allocations failed so far. *)
Record heap := Heap { refs : nat -> nat; content : nat -> bytes; nodes : gmap nat node; blocks : gmap nat (list (option cell));
                      bnext : nat; nnext : nat; knext : nat; oracle : list bool; fails : nat }.

Definition with_refs (f : nat -> nat) (s : heap) : heap := Heap f (content s) (nodes s) (blocks s) (bnext s) (nnext s) (knext s) (oracle s) (fails s).
Definition with_nodes (m : gmap nat node) (s : heap) : heap := Heap (refs s) (content s) m (blocks s) (bnext s) (nnext s) (knext s) (oracle s) (fails s).
Definition with_blocks (m : gmap nat (list (option cell))) (s : heap) : heap := Heap (refs s) (content s) (nodes s) m (bnext s) (nnext s) (knext s) (oracle s) (fails s).
Definition upd {A} (f : nat -> A) (i : nat) (x : A) : nat -> A := fun j => if decide (j = i) then x else f j.

(** Does the next allocation succeed? *)
Definition allocate : M heap bool := fun s =>
  match oracle s with
  | [] => Done (true, s)
  | b :: o => Done (b, Heap (refs s) (content s) (nodes s) (blocks s) (bnext s) (nnext s) (knext s) o (if b then fails s else S (fails s)))
  end.

(** CONSTBUFFER_IncRef, CONSTBUFFER_DecRef, CONSTBUFFER_GetContent (constbuffer.c:321-390) *)
Definition CONSTBUFFER_IncRef (b : nat) : M heap unit := fun s =>
  match refs s b with O => Undef | S r => Done (tt, with_refs (upd (refs s) b (S (S r))) s) end.
Definition CONSTBUFFER_DecRef (b : nat) : M heap unit := fun s =>
  match refs s b with O => Undef | S r => Done (tt, with_refs (upd (refs s) b r) s) end.
Definition CONSTBUFFER_GetContent (b : nat) : M heap bytes := fun s => match refs s b with O => Undef | S _ => Done (content s b, s) end.
(** CONSTBUFFER_Create and CONSTBUFFER_CreateWithMoveMemory (constbuffer.c:114-184): a new buffer with the given content *)
Definition new_buffer (l : bytes) : M heap (option nat) :=
  let* ok := allocate in
  if ok : bool then fun s =>
    Done (Some (bnext s), Heap (upd (refs s) (bnext s) 1%nat) (upd (content s) (bnext s) l) (nodes s) (blocks s) (S (bnext s)) (nnext s) (knext s) (oracle s) (fails s))
  else ret None.
(** CONSTBUFFER_CreateFromOffsetAndSize (constbuffer.c:231-283) *)
Definition CONSTBUFFER_CreateFromOffsetAndSize (b : nat) (offset sz : Z) : M heap (option nat) :=
  let* l := CONSTBUFFER_GetContent b in
  let size := Z.of_nat (length l) in
  if (offset >? size) || (offset >? UINT32_MAX - sz) || (u32 (offset + sz) >? size) then ret None
  else if decide (offset = 0 /\ sz = size) then CONSTBUFFER_IncRef b ;;; ret (Some b)
  else new_buffer (take (Z.to_nat sz) (drop (Z.to_nat offset) l)).

(** Access to the arrays *)
Definition get_node (a : nat) : M heap node := fun s => match nodes s !! a with Some n => Done (n, s) | None => Undef end.
Definition set_node (a : nat) (n : node) : M heap unit := fun s => Done (tt, with_nodes (<[a := n]> (nodes s)) s).
(** REFCOUNT_TYPE_DESTROY *)
Definition free_node (a : nat) : M heap unit := fun s => match nodes s !! a with Some _ => Done (tt, with_nodes (delete a (nodes s)) s) | None => Undef end.
(** REFCOUNT_TYPE_CREATE and REFCOUNT_TYPE_CREATE_FLEX with room for [room] handles; [fill] gives the members assigned right after *)
Definition new_node (room : nat) (count : Z) (fill : nat -> freer * place) : M heap (option nat) :=
  let* ok := allocate in
  if ok : bool then fun s =>
    let a := nnext s in
    Done (Some a, Heap (refs s) (content s) (<[a := Node 1 count (fst (fill a)) (snd (fill a)) (replicate room None)]> (nodes s)) (blocks s) (bnext s) (S a) (knext s) (oracle s) (fails s))
  else ret None.
(** result->buffers = result->buffers_memory; result->nBuffers = count; result->custom_free = NULL *)
Definition own_memory (a : nat) : freer * place := (NoFree, InNode a 0).
(** INC_REF *)
Definition inc_node (a : nat) : M heap unit :=
  let* n := get_node a in
  match nref n with O => undef | S r => set_node a (Node (S (S r)) (nBuffers n) (custom_free n) (buffers n) (buffers_memory n)) end.

(** malloc_2 and malloc with room for [room] cells, free, reading and writing a cell *)
Definition new_block (room : nat) : M heap (option nat) :=
  let* ok := allocate in
  if ok : bool then fun s =>
    Done (Some (knext s), Heap (refs s) (content s) (nodes s) (<[knext s := replicate room None]> (blocks s)) (bnext s) (nnext s) (S (knext s)) (oracle s) (fails s))
  else ret None.
Definition free_block (k : nat) : M heap unit := fun s => match blocks s !! k with Some _ => Done (tt, with_blocks (delete k (blocks s)) s) | None => Undef end.
Definition read_cell (k i : nat) : M heap cell := fun s => match blocks s !! k ≫= (.!! i) with Some (Some c) => Done (c, s) | _ => Undef end.
Definition write_cell (k i : nat) (c : cell) : M heap unit := fun s =>
  match blocks s !! k with
  | Some l => if decide (i < length l)%nat then Done (tt, with_blocks (<[k := <[i := Some c]> l]> (blocks s)) s) else Undef
  | None => Undef
  end.

(** p[i] for a pointer p into an array of handles *)
Definition read_place (p : place) (i : nat) : M heap nat := fun s =>
  match p with
  | InNode a off => match nodes s !! a with Some n => match buffers_memory n !! (off + i)%nat with Some (Some b) => Done (b, s) | _ => Undef end | None => Undef end
  | InBlock k off => match blocks s !! k ≫= (.!! (off + i)%nat) with Some (Some (Buf b)) => Done (b, s) | _ => Undef end
  end.
(** a->buffers[i] *)
Definition read_buffer (a : nat) (i : nat) : M heap nat := let* n := get_node a in read_place (buffers n) i.
(** a->buffers[i] = b, where a->buffers points at a->buffers_memory *)
Definition write_buffer (a i b : nat) : M heap unit :=
  let* n := get_node a in
  if decide (buffers n = InNode a 0 /\ (i < length (buffers_memory n))%nat)
  then set_node a (Node (nref n) (nBuffers n) (custom_free n) (buffers n) (<[i := Some b]> (buffers_memory n)))
  else undef.
(** &p[i] *)
Definition shift (p : place) (i : nat) : place := match p with InNode a off => InNode a (off + i) | InBlock k off => InBlock k (off + i) end.

(** The loops "IncRef(source[i]); result->buffers[d] = source[i]" of constbuffer_array.c:62-67, 400-407, 461-465, 523-527, 580-584, 646-650: n handles from index i on, to index d on *)
Fixpoint copy_buffers (source : nat -> M heap nat) (result i d n : nat) : M heap unit :=
  match n with
  | O => ret tt
  | S n => let* b := source i in CONSTBUFFER_IncRef b ;;; write_buffer result d b ;;; copy_buffers source result (S i) (S d) n
  end.

(** constbuffer_array.c:32-78. buffers is NULL or says how to read buffers[i]. *)
Definition constbuffer_array_create (source : option (nat -> M heap nat)) (buffer_count : Z) : M heap (option nat) :=
  match source with
  | None => if decide (buffer_count <> 0) then ret None else new_node (Z.to_nat buffer_count) buffer_count own_memory
  | Some read =>
    let* result := new_node (Z.to_nat buffer_count) buffer_count own_memory in
    match result with
    | None => ret None
    | Some a => copy_buffers read a 0 0 (Z.to_nat buffer_count) ;;; ret (Some a)
    end
  end.

(** constbuffer_array.c:80-100 *)
Definition constbuffer_array_create_empty : M heap (option nat) := new_node 0 0 own_memory.

(** constbuffer_array.c:112-144. [k]: the block the caller obtained from malloc *)
Definition constbuffer_array_create_with_move_buffers (k : option nat) (buffer_count : Z) : M heap (option nat) :=
  match k with
  | None => ret None
  | Some k => new_node 0 buffer_count (fun a => (FreeMoved a, InBlock k 0))
  end.

(** constbuffer_array.c:152-198. INC_REF comes before the members of result are assigned. *)
Definition constbuffer_array_create_from_buffer_index_and_count (original : option nat) (start_buffer_index buffer_count : Z) : M heap (option nat) :=
  match original with
  | None => ret None
  | Some o =>
    let* n := get_node o in
    if (start_buffer_index >? nBuffers n) || (buffer_count >? u32 (nBuffers n - start_buffer_index)) then ret None
    else
      let* result := new_node 0 buffer_count (fun _ => (FreeView o, shift (buffers n) (Z.to_nat start_buffer_index))) in
      match result with
      | None => ret None
      | Some a => inc_node o ;;; ret (Some a)
      end
  end.

(** constbuffer_array.c:288-306: the loop that stores the handles, with the iteration index i and n iterations to go *)
Fixpoint fill_slice (original result start_buffer_index buffer_count start_buffer end_buffer i n : nat) : M heap unit :=
  match n with
  | O => ret tt
  | S n =>
    (if decide (i = 0)%nat then write_buffer result i start_buffer
     else if decide (i = buffer_count - 1)%nat then write_buffer result i end_buffer
     else let* b := read_buffer original (start_buffer_index + i) in CONSTBUFFER_IncRef b ;;; write_buffer result i b) ;;;
    fill_slice original result start_buffer_index buffer_count start_buffer end_buffer (S i) n
  end.

(** constbuffer_array.c:200-322 *)
Definition constbuffer_array_create_from_buffer_offset_and_count (original : option nat) (start_buffer_index buffer_count start_buffer_offset end_buffer_offset : Z) : M heap (option nat) :=
  match original with
  | None => ret None
  | Some o =>
    let* n := get_node o in
    if (start_buffer_index >? nBuffers n) || (buffer_count >? u32 (nBuffers n - start_buffer_index)) then ret None
    else
      let* last := read_buffer o (Z.to_nat (u32 (nBuffers n - 1))) in
      let* last_buffer := CONSTBUFFER_GetContent last in
      if decide (buffer_count = nBuffers n /\ start_buffer_offset = 0 /\ end_buffer_offset = Z.of_nat (length last_buffer)) then inc_node o ;;; ret (Some o)
      else
        let* result := new_node (Z.to_nat buffer_count) buffer_count own_memory in
        match result with
        | None => ret None
        | Some a =>
          if decide (buffer_count = 1) then
            let* first := read_buffer o (Z.to_nat start_buffer_index) in
            let* only_buffer := CONSTBUFFER_CreateFromOffsetAndSize first start_buffer_offset end_buffer_offset in
            match only_buffer with
            | None => free_node a ;;; ret None
            | Some b => write_buffer a 0 b ;;; ret (Some a)
            end
          else
            let* first := read_buffer o (Z.to_nat start_buffer_index) in
            let* first_buffer := CONSTBUFFER_GetContent first in
            let start_buffer_size := u32 (Z.of_nat (length first_buffer) - start_buffer_offset) in
            let* start_buffer := CONSTBUFFER_CreateFromOffsetAndSize first start_buffer_offset start_buffer_size in
            match start_buffer with
            | None => free_node a ;;; ret None
            | Some sb =>
              let* final := read_buffer o (Z.to_nat (u32 (start_buffer_index + buffer_count - 1))) in
              let* end_buffer := CONSTBUFFER_CreateFromOffsetAndSize final 0 end_buffer_offset in
              match end_buffer with
              | None => CONSTBUFFER_DecRef sb ;;; free_node a ;;; ret None
              | Some eb =>
                fill_slice o a (Z.to_nat start_buffer_index) (Z.to_nat buffer_count) sb eb 0 (Z.to_nat buffer_count) ;;; ret (Some a)
              end
            end
        end
  end.

(** buffer_arrays[i], an array passed by the caller *)
Definition item {A} (l : list A) (i : nat) : M heap A := match l !! i with Some x => ret x | None => undef end.
(** constbuffer_array.c:353-373: the sum of the counts, None when the loop is left early *)
Fixpoint total_count (arrays : list (option nat)) (i n : nat) (total_buffer_count : Z) : M heap (option Z) :=
  match n with
  | O => ret (Some total_buffer_count)
  | S n' =>
    let* x := item arrays i in
    match x with
    | None => ret None
    | Some a =>
      let* d := get_node a in
      let total := u32 (total_buffer_count + nBuffers d) in
      if total <? nBuffers d then ret None else total_count arrays (S i) n' total
    end
  end.
(** constbuffer_array.c:398-407 *)
Fixpoint copy_arrays (arrays : list (option nat)) (result i d n : nat) : M heap unit :=
  match n with
  | O => ret tt
  | S n' =>
    let* x := item arrays i in
    match x with
    | None => undef
    | Some a => let* m := get_node a in
                copy_buffers (read_buffer a) result 0 d (Z.to_nat (nBuffers m)) ;;; copy_arrays arrays result (S i) (d + Z.to_nat (nBuffers m)) n'
    end
  end.
(** constbuffer_array.c:324-418 *)
Definition constbuffer_array_create_from_array_array (buffer_arrays : option (list (option nat))) (buffer_array_count : Z) : M heap (option nat) :=
  match buffer_arrays with
  | None => if decide (buffer_array_count <> 0) then ret None else constbuffer_array_create_empty
  | Some arrays =>
    if decide (buffer_array_count = 0) then constbuffer_array_create_empty
    else
      let* total := total_count arrays 0 (Z.to_nat buffer_array_count) 0 in
      match total with
      | None => ret None
      | Some t =>
        let* result := new_node (Z.to_nat t) t own_memory in
        match result with
        | None => ret None
        | Some a => copy_arrays arrays a 0 0 (Z.to_nat buffer_array_count) ;;; ret (Some a)
        end
      end
  end.

(** constbuffer_array.c:420-476 *)
Definition constbuffer_array_add_front (handle buffer : option nat) : M heap (option nat) :=
  match handle, buffer with
  | Some h, Some b =>
    let* n := get_node h in
    if decide (nBuffers n = UINT32_MAX) then ret None
    else
      let* result := new_node (Z.to_nat (u32 (nBuffers n + 1))) (u32 (nBuffers n + 1)) own_memory in
      match result with
      | None => ret None
      | Some a =>
        CONSTBUFFER_IncRef b ;;; write_buffer a 0 b ;;;
        copy_buffers (fun i => read_buffer h (i - 1)) a 1 1 (Z.to_nat (u32 (nBuffers n + 1)) - 1) ;;; ret (Some a)
      end
  | _, _ => ret None
  end.

(** constbuffer_array.c:478-539: the array and what is stored in *constbuffer_handle *)
Definition constbuffer_array_remove_front (handle : option nat) (out : bool) : M heap (option (nat * nat)) :=
  match handle, out with
  | Some h, true =>
    let* n := get_node h in
    if decide (nBuffers n = 0) then ret None
    else
      let* result := new_node (Z.to_nat (u32 (nBuffers n - 1))) (u32 (nBuffers n - 1)) own_memory in
      match result with
      | None => ret None
      | Some a =>
        let* b := read_buffer h 0 in
        CONSTBUFFER_IncRef b ;;;
        copy_buffers (read_buffer h) a 1 0 (Z.to_nat (nBuffers n) - 1) ;;;
        let* b' := read_buffer h 0 in ret (Some (a, b'))
      end
  | _, _ => ret None
  end.

(** constbuffer_array.c:541-597 *)
Definition constbuffer_array_add_back (handle buffer : option nat) : M heap (option nat) :=
  match handle, buffer with
  | Some h, Some b =>
    let* n := get_node h in
    if decide (nBuffers n = UINT32_MAX) then ret None
    else
      let* result := new_node (Z.to_nat (u32 (nBuffers n + 1))) (u32 (nBuffers n + 1)) own_memory in
      match result with
      | None => ret None
      | Some a =>
        let last := Z.to_nat (u32 (u32 (nBuffers n + 1) - 1)) in
        copy_buffers (read_buffer h) a 0 0 last ;;;
        CONSTBUFFER_IncRef b ;;; write_buffer a last b ;;; ret (Some a)
      end
  | _, _ => ret None
  end.

(** constbuffer_array.c:599-660: the array and what is stored in *constbuffer_handle *)
Definition constbuffer_array_remove_back (handle : option nat) (out : bool) : M heap (option (nat * nat)) :=
  match handle, out with
  | Some h, true =>
    let* n := get_node h in
    if decide (nBuffers n = 0) then ret None
    else
      let* result := new_node (Z.to_nat (u32 (nBuffers n - 1))) (u32 (nBuffers n - 1)) own_memory in
      match result with
      | None => ret None
      | Some a =>
        let last := Z.to_nat (u32 (nBuffers n - 1)) in
        let* b := read_buffer h last in
        CONSTBUFFER_IncRef b ;;;
        let* b' := read_buffer h last in
        copy_buffers (read_buffer h) a 0 0 last ;;; ret (Some (a, b'))
      end
  | _, _ => ret None
  end.

(** constbuffer_array.c:662-686: what is stored in *buffer_count; None: it failed *)
Definition constbuffer_array_get_buffer_count (handle : option nat) (out : bool) : M heap (option Z) :=
  match handle, out with Some h, true => let* n := get_node h in ret (Some (nBuffers n)) | _, _ => ret None end.

(** constbuffer_array.c:688-716 *)
Definition constbuffer_array_get_buffer (handle : option nat) (buffer_index : Z) : M heap (option nat) :=
  match handle with
  | None => ret None
  | Some h =>
    let* n := get_node h in
    if buffer_index >=? nBuffers n then ret None
    else let* b := read_buffer h (Z.to_nat buffer_index) in CONSTBUFFER_IncRef b ;;; ret (Some b)
  end.

(** constbuffer_array.c:718-739 *)
Definition constbuffer_array_get_buffer_content (handle : option nat) (buffer_index : Z) : M heap (option bytes) :=
  match handle with
  | None => ret None
  | Some h =>
    let* n := get_node h in
    if buffer_index >=? nBuffers n then ret None
    else let* b := read_buffer h (Z.to_nat buffer_index) in let* l := CONSTBUFFER_GetContent b in ret (Some l)
  end.

(** constbuffer_array.c:741-753 *)
Definition constbuffer_array_inc_ref (handle : option nat) : M heap unit := match handle with None => ret tt | Some h => inc_node h end.

(** constbuffer_array.c:105-108 and 772-775: release the buffers from index i on, n of them *)
Fixpoint release_buffers (a i n : nat) : M heap unit :=
  match n with
  | O => ret tt
  | S n => let* b := read_buffer a i in CONSTBUFFER_DecRef b ;;; release_buffers a (S i) n
  end.
(** constbuffer_array.c:102-110 *)
Definition constbuffer_array_move_buffers_free (context : nat) : M heap unit :=
  let* n := get_node context in
  release_buffers context 0 (Z.to_nat (nBuffers n)) ;;;
  match buffers n with InBlock k O => free_block k | _ => undef end.
(** constbuffer_array.c:755-785 with 146-150. It calls itself for the array a view was made from; fuel bounds the depth. *)
Fixpoint dec_ref_n (fuel : nat) (a : nat) : M heap unit :=
  match fuel with
  | O => nofuel
  | S fuel =>
    let* n := get_node a in
    match nref n with
    | O => undef
    | S r =>
      set_node a (Node r (nBuffers n) (custom_free n) (buffers n) (buffers_memory n)) ;;;
      if decide (r = 0)%nat then
        match custom_free n with
        | NoFree => release_buffers a 0 (Z.to_nat (nBuffers n))
        | FreeMoved context => constbuffer_array_move_buffers_free context
        | FreeView context => dec_ref_n fuel context
        end ;;; free_node a
      else ret tt
    end
  end.
Definition constbuffer_array_dec_ref (handle : option nat) : M heap unit := match handle with None => ret tt | Some h => dec_ref_n (S h) h end.

(** constbuffer_array.c:804-824: the total, None when the loop is left early. The size of a CONSTBUFFER is a uint32_t, so the test of line 811 is never true. *)
Fixpoint total_size (a i n : nat) (total : Z) : M heap (option Z) :=
  match n with
  | O => ret (Some total)
  | S n =>
    let* b := read_buffer a i in
    let* l := CONSTBUFFER_GetContent b in
    if u32 (total + Z.of_nat (length l)) <? total then ret None else total_size a (S i) n (u32 (total + Z.of_nat (length l)))
  end.
(** constbuffer_array.c:787-839: what is stored in *all_buffers_size; None: it failed *)
Definition constbuffer_array_get_all_buffers_size (handle : option nat) (out : bool) : M heap (option Z) :=
  match handle, out with Some h, true => let* n := get_node h in total_size h 0 (Z.to_nat (nBuffers n)) 0 | _, _ => ret None end.

(** constbuffer_array.c:841-858: the pointer it returns, through which the caller reads the handles *)
Definition constbuffer_array_get_const_buffer_handle_array (handle : option nat) : M heap (option place) :=
  match handle with None => ret None | Some h => let* n := get_node h in ret (Some (buffers n)) end.

(** constbuffer_array.c:876-887 *)
Fixpoint count_non_empty (a i n : nat) (count : Z) : M heap Z :=
  match n with
  | O => ret count
  | S n =>
    let* b := read_buffer a i in
    let* l := CONSTBUFFER_GetContent b in
    count_non_empty a (S i) n (if decide (0 < length l)%nat then u32 (count + 1) else count)
  end.
(** constbuffer_array.c:921-931 *)
Fixpoint copy_non_empty (a result i d n : nat) : M heap unit :=
  match n with
  | O => ret tt
  | S n =>
    let* b := read_buffer a i in
    let* l := CONSTBUFFER_GetContent b in
    if decide (0 < length l)%nat then write_buffer result d b ;;; CONSTBUFFER_IncRef b ;;; copy_non_empty a result (S i) (S d) n
    else copy_non_empty a result (S i) d n
  end.
(** constbuffer_array.c:860-938 *)
Definition constbuffer_array_remove_empty_buffers (handle : option nat) : M heap (option nat) :=
  match handle with
  | None => ret None
  | Some h =>
    let* n := get_node h in
    let* non_empty_count := count_non_empty h 0 (Z.to_nat (nBuffers n)) 0 in
    if decide (non_empty_count = nBuffers n) then inc_node h ;;; ret (Some h)
    else if decide (non_empty_count = 0) then constbuffer_array_create_empty
    else
      let* result := new_node (Z.to_nat non_empty_count) non_empty_count own_memory in
      match result with
      | None => ret None
      | Some a => copy_non_empty h a 0 0 (Z.to_nat (nBuffers n)) ;;; ret (Some a)
      end
  end.

(** constbuffer_array.c:972-979, with CONSTBUFFER_HANDLE_contain_same (constbuffer.c:393-439) *)
Fixpoint same_from (left right i n : nat) : M heap bool :=
  match n with
  | O => ret true
  | S n =>
    let* x := read_buffer left i in let* y := read_buffer right i in
    let* lx := CONSTBUFFER_GetContent x in let* ly := CONSTBUFFER_GetContent y in
    if decide (lx = ly) then same_from left right (S i) n else ret false
  end.
(** constbuffer_array.c:940-996 *)
Definition CONSTBUFFER_ARRAY_HANDLE_contain_same (left right : option nat) : M heap bool :=
  match left, right with
  | None, None => ret true
  | None, Some _ | Some _, None => ret false
  | Some l, Some r =>
    let* nl := get_node l in let* nr := get_node r in
    if decide (nBuffers nl <> nBuffers nr) then ret false else same_from l r 0 (Z.to_nat (nBuffers nl))
  end.
