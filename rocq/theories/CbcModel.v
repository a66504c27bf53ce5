(** Model of src/constbuffer_array.c as code that runs beside other threads (Prog): every access to memory that other threads may see is one action. CbaModel is the same code in one thread, for the exact
    sequential claims; here the interleavings count.
    Simplifications: the fields of an array that was just allocated, which nobody else has seen, are written in one go; reference counts are unbounded integers; log output is left out; the handles in an array
    passed by the caller are not NULL. CONSTBUFFER (constbuffer.c, modelled in ConstBufModel) appears as a struct with its content, a count, and the buffer it was made from, if any: where the bytes are is left out. *)
From Verif Require Import Common Block CMem Prog.
Local Open Scope Z_scope.
Local Open Scope prog_scope.

(** constbuffer_array.c:25,27 custom_free and its context: NULL, constbuffer_array_move_buffers_free of the array itself, constbuffer_array_buffer_index_and_count_free of the array a view was made from *)
Inductive freer := NoFree | FreeMoved | FreeView (original : positive).
(** What the member buffers points at: nothing yet, a slot of the buffers_memory of an array, or a slot of a block obtained from malloc *)
Inductive place := Nowhere | InNode (a : positive) (off : nat) | InBlock (k : positive) (off : nat).
#[export] Instance place_eq_dec : EqDecision place. Proof. solve_decision. Defined.
(** constbuffer_array.c:22-29 CONSTBUFFER_ARRAY_HANDLE_DATA; a slot of buffers_memory that was not written is None *)
Record node := Node { nBuffers : Z; custom_free : freer; buffers : place; buffers_memory : list (option positive) }.
(** A CONSTBUFFER with its count, an array with its count, a block of handles from malloc *)
Inductive obj := OBuf (content : bytes) (original : ptr) (refs : Z) | OArr (n : node) (refs : Z) | OCells (cells : list (option positive)).
Notation cst := (st obj).
Notation code A := (prog cst A).

(** interlocked_increment / interlocked_decrement of a count *)
Definition add_count (d : Z) (h : positive) : M cst Z :=
  bind (get_obj h) (fun o => match o with
    | OBuf c p n => bind (set_obj h (OBuf c p (n + d))) (fun _ => ret (n + d))
    | OArr x n => bind (set_obj h (OArr x (n + d))) (fun _ => ret (n + d))
    | OCells _ => undef
    end).
Definition inc (h : positive) : code unit := act (add_count 1 h) ;;; Ret tt.
CoFixpoint free_structs (stack : list positive) : code unit :=
  match stack with [] => Ret tt | h :: stack' => Act (free_obj h) (fun _ => free_structs stack') end.

(** CONSTBUFFER_GetContent (constbuffer.c:335-350) *)
Definition content_of (b : positive) : M cst bytes := bind (get_obj b) (fun o => match o with OBuf c _ _ => ret c | _ => undef end).
(** CONSTBUFFER_DecRef (constbuffer.c:352-390), with the stack of the structs that wait to be freed *)
CoFixpoint DecRef_loop (b : positive) (stack : list positive) : code unit :=
  Act (add_count (-1) b) (fun c =>
  if decide (c = 0) then
    Act (get_obj b) (fun o =>
    match o with
    | OBuf _ (Some original) _ => DecRef_loop original (b :: stack)
    | OBuf _ None _ => free_structs (b :: stack)
    | _ => Act undef Ret
    end)
  else free_structs stack).
Definition CONSTBUFFER_DecRef (b : positive) : code unit := DecRef_loop b [].
(** CONSTBUFFER_Create (constbuffer.c:114-131): a new buffer with the given content *)
Definition CONSTBUFFER_Create (l : bytes) : code ptr := act (new_obj (OBuf l None 1)).
(** CONSTBUFFER_CreateFromOffsetAndSize (constbuffer.c:231-283) *)
Definition CONSTBUFFER_CreateFromOffsetAndSize (b : positive) (offset sz : Z) : code ptr :=
  let* l := act (content_of b) in
  let size := Z.of_nat (length l) in
  if (offset >? size) || (offset >? UINT32_MAX - sz) || (u32 (offset + sz) >? size) then Ret None
  else if decide (offset = 0 /\ sz = size) then inc b ;;; Ret (Some b)
  else let* result := act (new_obj (OBuf (take (Z.to_nat sz) (drop (Z.to_nat offset) l)) (Some b) 1)) in
       match result with None => Ret None | Some r => inc b ;;; Ret (Some r) end.

(** Access to the arrays *)
Definition get_node (a : positive) : M cst node := bind (get_obj a) (fun o => match o with OArr n _ => ret n | _ => undef end).
(** p[i] for a pointer p into an array of handles *)
Definition slot (l : list (option positive)) (i : nat) : M cst positive := match l !! i with Some (Some b) => ret b | _ => undef end.
Definition read_place (p : place) (i : nat) : M cst positive :=
  match p with
  | Nowhere => undef
  | InNode a off => bind (get_node a) (fun n => slot (buffers_memory n) (off + i))
  | InBlock k off => bind (get_obj k) (fun o => match o with OCells l => slot l (off + i) | _ => undef end)
  end.
(** a->buffers[i] *)
Definition read_buffer (a : positive) (i : nat) : code positive := let* n := act (get_node a) in act (read_place (buffers n) i).
(** a->buffers[i] = b, where a->buffers points at a->buffers_memory *)
Definition write_buffer (a : positive) (i : nat) (b : positive) : M cst unit :=
  bind (get_obj a) (fun o => match o with
    | OArr n r => if decide (buffers n = InNode a 0 /\ (i < length (buffers_memory n))%nat)
                  then set_obj a (OArr (Node (nBuffers n) (custom_free n) (buffers n) (<[i := Some b]> (buffers_memory n))) r) else undef
    | _ => undef
    end).
(** &p[i] *)
Definition shift (p : place) (i : nat) : place := match p with Nowhere => Nowhere | InNode a off => InNode a (off + i) | InBlock k off => InBlock k (off + i) end.

(** REFCOUNT_TYPE_CREATE, and REFCOUNT_TYPE_CREATE_FLEX with room for [room] handles *)
Definition new_node (room : nat) : M cst ptr := new_obj (OArr (Node 0 NoFree Nowhere (replicate room None)) 1).
(** result->nBuffers = count; result->custom_free = how; result->buffers = p; the count of result is 1 *)
Definition set_members (a : positive) (count : Z) (how : freer) (p : place) (room : nat) : M cst unit := set_obj a (OArr (Node count how p (replicate room None)) 1).
(** ... with result->buffers = result->buffers_memory, result->custom_free = NULL *)
Definition new_array (count : Z) : code ptr :=
  let* result := act (new_node (Z.to_nat count)) in
  match result with None => Ret None | Some a => act (set_members a count NoFree (InNode a 0) (Z.to_nat count)) ;;; Ret (Some a) end.

(** The loops "IncRef(source[i]); result->buffers[d] = source[i]" of constbuffer_array.c:62-67, 400-407, 461-465, 523-527, 580-584, 646-650: n handles from index i on, to index d on *)
Fixpoint copy_buffers (source : nat -> code positive) (result : positive) (i d n : nat) : code unit :=
  match n with
  | O => Ret tt
  | S n => let* b := source i in inc b ;;; act (write_buffer result d b) ;;; copy_buffers source result (S i) (S d) n
  end.
(** An element of an array of the caller *)
Definition item {A} (l : list A) (i : nat) : code A := match l !! i with Some x => Ret x | None => act undef end.

(** constbuffer_array.c:32-78 *)
Definition constbuffer_array_create (handles : option (list positive)) (buffer_count : Z) : code ptr :=
  match handles with
  | None => if decide (buffer_count <> 0) then Ret None else new_array buffer_count
  | Some l =>
    let* result := new_array buffer_count in
    match result with
    | None => Ret None
    | Some a => copy_buffers (item l) a 0 0 (Z.to_nat buffer_count) ;;; Ret (Some a)
    end
  end.
(** constbuffer_array.c:80-100 *)
Definition constbuffer_array_create_empty : code ptr := new_array 0.
(** constbuffer_array.c:112-144. [k]: the block the caller obtained from malloc *)
Definition constbuffer_array_create_with_move_buffers (k : ptr) (buffer_count : Z) : code ptr :=
  match k with
  | None => Ret None
  | Some k =>
    let* result := act (new_node 0) in
    match result with None => Ret None | Some a => act (set_members a buffer_count FreeMoved (InBlock k 0) 0) ;;; Ret (Some a) end
  end.
(** constbuffer_array.c:152-198 *)
Definition constbuffer_array_create_from_buffer_index_and_count (original : ptr) (start_buffer_index buffer_count : Z) : code ptr :=
  match original with
  | None => Ret None
  | Some o =>
    let* n := act (get_node o) in
    if (start_buffer_index >? nBuffers n) || (buffer_count >? u32 (nBuffers n - start_buffer_index)) then Ret None
    else
      let* result := act (new_node 0) in
      match result with
      | None => Ret None
      | Some a =>
        inc o ;;;
        act (set_members a buffer_count (FreeView o) (shift (buffers n) (Z.to_nat start_buffer_index)) 0) ;;;
        Ret (Some a)
      end
  end.

(** constbuffer_array.c:288-306: the loop that stores the handles, with the iteration index i and n iterations to go *)
Fixpoint fill_slice (original result : positive) (start_buffer_index buffer_count : nat) (start_buffer end_buffer : positive) (i n : nat) : code unit :=
  match n with
  | O => Ret tt
  | S n =>
    (if decide (i = 0)%nat then act (write_buffer result i start_buffer)
     else if decide (i = buffer_count - 1)%nat then act (write_buffer result i end_buffer)
     else let* b := read_buffer original (start_buffer_index + i) in inc b ;;; act (write_buffer result i b)) ;;;
    fill_slice original result start_buffer_index buffer_count start_buffer end_buffer (S i) n
  end.
(** constbuffer_array.c:200-322 *)
Definition constbuffer_array_create_from_buffer_offset_and_count (original : ptr) (start_buffer_index buffer_count start_buffer_offset end_buffer_offset : Z) : code ptr :=
  match original with
  | None => Ret None
  | Some o =>
    let* n := act (get_node o) in
    if (start_buffer_index >? nBuffers n) || (buffer_count >? u32 (nBuffers n - start_buffer_index)) then Ret None
    else
      let* last := read_buffer o (Z.to_nat (u32 (nBuffers n - 1))) in
      let* last_buffer := act (content_of last) in
      if decide (buffer_count = nBuffers n /\ start_buffer_offset = 0 /\ end_buffer_offset = Z.of_nat (length last_buffer)) then inc o ;;; Ret (Some o)
      else
        let* result := new_array buffer_count in
        match result with
        | None => Ret None
        | Some a =>
          if decide (buffer_count = 1) then
            let* first := read_buffer o (Z.to_nat start_buffer_index) in
            let* only_buffer := CONSTBUFFER_CreateFromOffsetAndSize first start_buffer_offset end_buffer_offset in
            match only_buffer with
            | None => act (free_obj a) ;;; Ret None
            | Some b => act (write_buffer a 0 b) ;;; Ret (Some a)
            end
          else
            let* first := read_buffer o (Z.to_nat start_buffer_index) in
            let* first_buffer := act (content_of first) in
            let start_buffer_size := u32 (Z.of_nat (length first_buffer) - start_buffer_offset) in
            let* start_buffer := CONSTBUFFER_CreateFromOffsetAndSize first start_buffer_offset start_buffer_size in
            match start_buffer with
            | None => act (free_obj a) ;;; Ret None
            | Some sb =>
              let* final := read_buffer o (Z.to_nat (u32 (start_buffer_index + buffer_count - 1))) in
              let* end_buffer := CONSTBUFFER_CreateFromOffsetAndSize final 0 end_buffer_offset in
              match end_buffer with
              | None => CONSTBUFFER_DecRef sb ;;; act (free_obj a) ;;; Ret None
              | Some eb =>
                fill_slice o a (Z.to_nat start_buffer_index) (Z.to_nat buffer_count) sb eb 0 (Z.to_nat buffer_count) ;;; Ret (Some a)
              end
            end
        end
  end.

(** constbuffer_array.c:353-373: the sum of the counts, None when the loop is left early *)
Fixpoint total_count (arrays : list ptr) (i n : nat) (total_buffer_count : Z) : code (option Z) :=
  match n with
  | O => Ret (Some total_buffer_count)
  | S n' =>
    let* x := item arrays i in
    match x with
    | None => Ret None
    | Some a =>
      let* d := act (get_node a) in
      let total := u32 (total_buffer_count + nBuffers d) in
      if total <? nBuffers d then Ret None else total_count arrays (S i) n' total
    end
  end.
(** constbuffer_array.c:398-407 *)
Fixpoint copy_arrays (arrays : list ptr) (result : positive) (i d n : nat) : code unit :=
  match n with
  | O => Ret tt
  | S n' =>
    let* x := item arrays i in
    match x with
    | None => act undef
    | Some a => let* m := act (get_node a) in
                copy_buffers (read_buffer a) result 0 d (Z.to_nat (nBuffers m)) ;;; copy_arrays arrays result (S i) (d + Z.to_nat (nBuffers m)) n'
    end
  end.
(** constbuffer_array.c:324-418 *)
Definition constbuffer_array_create_from_array_array (buffer_arrays : option (list ptr)) (buffer_array_count : Z) : code ptr :=
  match buffer_arrays with
  | None => if decide (buffer_array_count <> 0) then Ret None else constbuffer_array_create_empty
  | Some arrays =>
    if decide (buffer_array_count = 0) then constbuffer_array_create_empty
    else
      let* total := total_count arrays 0 (Z.to_nat buffer_array_count) 0 in
      match total with
      | None => Ret None
      | Some t =>
        let* result := new_array t in
        match result with
        | None => Ret None
        | Some a => copy_arrays arrays a 0 0 (Z.to_nat buffer_array_count) ;;; Ret (Some a)
        end
      end
  end.

(** constbuffer_array.c:420-476 *)
Definition constbuffer_array_add_front (handle buffer : ptr) : code ptr :=
  match handle, buffer with
  | Some h, Some b =>
    let* n := act (get_node h) in
    if decide (nBuffers n = UINT32_MAX) then Ret None
    else
      let* result := new_array (u32 (nBuffers n + 1)) in
      match result with
      | None => Ret None
      | Some a =>
        inc b ;;; act (write_buffer a 0 b) ;;;
        copy_buffers (fun i => read_buffer h (i - 1)) a 1 1 (Z.to_nat (u32 (nBuffers n + 1)) - 1) ;;; Ret (Some a)
      end
  | _, _ => Ret None
  end.
(** constbuffer_array.c:478-539: the array and what is stored in *constbuffer_handle *)
Definition constbuffer_array_remove_front (handle : ptr) (out : bool) : code (option (positive * positive)) :=
  match handle, out with
  | Some h, true =>
    let* n := act (get_node h) in
    if decide (nBuffers n = 0) then Ret None
    else
      let* result := new_array (u32 (nBuffers n - 1)) in
      match result with
      | None => Ret None
      | Some a =>
        let* b := read_buffer h 0 in
        inc b ;;;
        copy_buffers (read_buffer h) a 1 0 (Z.to_nat (nBuffers n) - 1) ;;;
        let* b' := read_buffer h 0 in Ret (Some (a, b'))
      end
  | _, _ => Ret None
  end.
(** constbuffer_array.c:541-597 *)
Definition constbuffer_array_add_back (handle buffer : ptr) : code ptr :=
  match handle, buffer with
  | Some h, Some b =>
    let* n := act (get_node h) in
    if decide (nBuffers n = UINT32_MAX) then Ret None
    else
      let* result := new_array (u32 (nBuffers n + 1)) in
      match result with
      | None => Ret None
      | Some a =>
        let last := Z.to_nat (u32 (u32 (nBuffers n + 1) - 1)) in
        copy_buffers (read_buffer h) a 0 0 last ;;;
        inc b ;;; act (write_buffer a last b) ;;; Ret (Some a)
      end
  | _, _ => Ret None
  end.
(** constbuffer_array.c:599-660: the array and what is stored in *constbuffer_handle *)
Definition constbuffer_array_remove_back (handle : ptr) (out : bool) : code (option (positive * positive)) :=
  match handle, out with
  | Some h, true =>
    let* n := act (get_node h) in
    if decide (nBuffers n = 0) then Ret None
    else
      let* result := new_array (u32 (nBuffers n - 1)) in
      match result with
      | None => Ret None
      | Some a =>
        let last := Z.to_nat (u32 (nBuffers n - 1)) in
        let* b := read_buffer h last in
        inc b ;;;
        let* b' := read_buffer h last in
        copy_buffers (read_buffer h) a 0 0 last ;;; Ret (Some (a, b'))
      end
  | _, _ => Ret None
  end.

(** constbuffer_array.c:662-686: what is stored in *buffer_count; None: it failed *)
Definition constbuffer_array_get_buffer_count (handle : ptr) (out : bool) : code (option Z) :=
  match handle, out with Some h, true => let* n := act (get_node h) in Ret (Some (nBuffers n)) | _, _ => Ret None end.
(** constbuffer_array.c:688-716 *)
Definition constbuffer_array_get_buffer (handle : ptr) (buffer_index : Z) : code ptr :=
  match handle with
  | None => Ret None
  | Some h =>
    let* n := act (get_node h) in
    if buffer_index >=? nBuffers n then Ret None
    else let* b := read_buffer h (Z.to_nat buffer_index) in inc b ;;; Ret (Some b)
  end.
(** constbuffer_array.c:718-739 *)
Definition constbuffer_array_get_buffer_content (handle : ptr) (buffer_index : Z) : code (option bytes) :=
  match handle with
  | None => Ret None
  | Some h =>
    let* n := act (get_node h) in
    if buffer_index >=? nBuffers n then Ret None
    else let* b := read_buffer h (Z.to_nat buffer_index) in let* l := act (content_of b) in Ret (Some l)
  end.
(** constbuffer_array.c:741-753 *)
Definition constbuffer_array_inc_ref (handle : ptr) : code unit := match handle with None => Ret tt | Some h => inc h end.

(** constbuffer_array.c:105-108 and 772-775: release the buffers from index i on, n of them *)
Fixpoint release_buffers (a : positive) (i n : nat) : code unit :=
  match n with
  | O => Ret tt
  | S n => let* b := read_buffer a i in CONSTBUFFER_DecRef b ;;; release_buffers a (S i) n
  end.
(** constbuffer_array.c:102-110 *)
Definition constbuffer_array_move_buffers_free (a : positive) (n : node) : code unit :=
  release_buffers a 0 (Z.to_nat (nBuffers n)) ;;;
  match buffers n with InBlock k O => act (free_obj k) | _ => act undef end.
(** constbuffer_array.c:755-785 with 146-150. It calls itself for the array a view was made from; stack: the arrays that wait to be freed. *)
CoFixpoint dec_ref_loop (a : positive) (stack : list positive) : code unit :=
  Act (add_count (-1) a) (fun c =>
  if decide (c = 0) then
    Act (get_node a) (fun n =>
    match custom_free n with
    | NoFree => release_buffers a 0 (Z.to_nat (nBuffers n)) ;;; free_structs (a :: stack)
    | FreeMoved => constbuffer_array_move_buffers_free a n ;;; free_structs (a :: stack)
    | FreeView original => dec_ref_loop original (a :: stack)
    end)
  else free_structs stack).
Definition constbuffer_array_dec_ref (handle : ptr) : code unit := match handle with None => Ret tt | Some h => dec_ref_loop h [] end.

(** constbuffer_array.c:804-824: the total, None when the loop is left early. The size of a CONSTBUFFER is a uint32_t, so the test of line 811 is never true. *)
Fixpoint total_size (a : positive) (i n : nat) (total : Z) : code (option Z) :=
  match n with
  | O => Ret (Some total)
  | S n =>
    let* b := read_buffer a i in
    let* l := act (content_of b) in
    if u32 (total + Z.of_nat (length l)) <? total then Ret None else total_size a (S i) n (u32 (total + Z.of_nat (length l)))
  end.
(** constbuffer_array.c:787-839: what is stored in *all_buffers_size; None: it failed *)
Definition constbuffer_array_get_all_buffers_size (handle : ptr) (out : bool) : code (option Z) :=
  match handle, out with Some h, true => let* n := act (get_node h) in total_size h 0 (Z.to_nat (nBuffers n)) 0 | _, _ => Ret None end.
(** constbuffer_array.c:841-858: the pointer it returns, through which the caller reads the handles *)
Definition constbuffer_array_get_const_buffer_handle_array (handle : ptr) : code (option place) :=
  match handle with None => Ret None | Some h => let* n := act (get_node h) in Ret (Some (buffers n)) end.

(** constbuffer_array.c:876-887 *)
Fixpoint count_non_empty (a : positive) (i n : nat) (count : Z) : code Z :=
  match n with
  | O => Ret count
  | S n =>
    let* b := read_buffer a i in
    let* l := act (content_of b) in
    count_non_empty a (S i) n (if decide (0 < length l)%nat then u32 (count + 1) else count)
  end.
(** constbuffer_array.c:921-931 *)
Fixpoint copy_non_empty (a result : positive) (i d n : nat) : code unit :=
  match n with
  | O => Ret tt
  | S n =>
    let* b := read_buffer a i in
    let* l := act (content_of b) in
    if decide (0 < length l)%nat then act (write_buffer result d b) ;;; inc b ;;; copy_non_empty a result (S i) (S d) n
    else copy_non_empty a result (S i) d n
  end.
(** constbuffer_array.c:860-938 *)
Definition constbuffer_array_remove_empty_buffers (handle : ptr) : code ptr :=
  match handle with
  | None => Ret None
  | Some h =>
    let* n := act (get_node h) in
    let* non_empty_count := count_non_empty h 0 (Z.to_nat (nBuffers n)) 0 in
    if decide (non_empty_count = nBuffers n) then inc h ;;; Ret (Some h)
    else if decide (non_empty_count = 0) then constbuffer_array_create_empty
    else
      let* result := new_array non_empty_count in
      match result with
      | None => Ret None
      | Some a => copy_non_empty h a 0 0 (Z.to_nat (nBuffers n)) ;;; Ret (Some a)
      end
  end.

(** constbuffer_array.c:972-979, with CONSTBUFFER_HANDLE_contain_same (constbuffer.c:393-439) *)
Fixpoint same_from (left right : positive) (i n : nat) : code bool :=
  match n with
  | O => Ret true
  | S n =>
    let* x := read_buffer left i in let* y := read_buffer right i in
    let* lx := act (content_of x) in let* ly := act (content_of y) in
    if decide (lx = ly) then same_from left right (S i) n else Ret false
  end.
(** constbuffer_array.c:940-996 *)
Definition CONSTBUFFER_ARRAY_HANDLE_contain_same (left right : ptr) : code bool :=
  match left, right with
  | None, None => Ret true
  | None, Some _ | Some _, None => Ret false
  | Some l, Some r =>
    let* nl := act (get_node l) in let* nr := act (get_node r) in
    if decide (nBuffers nl <> nBuffers nr) then Ret false else same_from l r 0 (Z.to_nat (nBuffers nl))
  end.
