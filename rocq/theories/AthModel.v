(** The copy and free handlers of async_type_helper (src/async_type_helper.c, src/constbuffer_array_sync_wrapper.c and the macros of inc/c_util/async_type_helper_*_handler.h).
    Memory and arrays are those of CbaModel. A handle is a number, NULL is None; a NULL handle stored in a block is the cell Word 0. A copy handler returns whether it
    succeeded (0) and what it stored in *dst: None when it stored nothing. One thread. *)
From Verif Require Import Common CbaModel.
From Verif Require Base64Model.
Local Open Scope cm.
Local Open Scope Z_scope.

(** What a pointer given by the caller points at: memory the caller has somewhere, or the beginning of a block obtained from malloc *)
Inductive memory (A : Type) := Own (l : list A) | Block (k : nat).
Arguments Own {A} l.
Arguments Block {A} k.

(** The characters that can be read at the pointer, one after the other *)
Fixpoint characters (c : list (option cell)) : bytes := match c with Some (Byte z) :: c => z :: characters c | _ => [] end.
Definition chars_at (p : memory Z) : M heap bytes := fun s =>
  match p with Own l => Done (l, s) | Block k => match blocks s !! k with Some c => Done (characters c, s) | None => Undef end end.
(** strcpy: byte after byte, the terminator too *)
Fixpoint strcpy (k i : nat) (l : bytes) : M heap unit :=
  match l with
  | [] => undef
  | c :: l => write_cell k i (Byte c) ;;; if c =? 0 then ret tt else strcpy k (S i) l
  end.

(** async_type_helper.c:17-59 async_type_helper_const_charptr_t_copy. dest: is it not NULL. The source is read before anything is written: it does not alias the copy, which is new.
    strlen(source) + 1 does not overflow: the source is in memory. *)
Definition const_charptr_copy (dest : bool) (source : option (memory Z)) : M heap (bool * option (option nat)) :=
  if dest then
    match source with
    | None => ret (true, Some None)
    | Some p =>
      let* l := chars_at p in
      let* n := Base64Model.strlen l in
      let* block := new_block (n + 1) in
      match block with
      | None => ret (false, Some None)
      | Some k => strcpy k 0 l ;;; ret (true, Some (Some k))
      end
    end
  else ret (false, None).

(** async_type_helper.c:61-73 async_type_helper_const_charptr_t_free *)
Definition const_charptr_free (value : option nat) : M heap unit := match value with None => ret tt | Some k => free_block k end.

Definition handle_cell (x : option nat) : cell := match x with None => Word 0 | Some a => Arr a end.
(** src[i] *)
Definition handle_at (p : memory (option nat)) (i : nat) : M heap (option nat) :=
  match p with
  | Own l => item l i
  | Block k => let* c := read_cell k i in match c with Arr a => ret (Some a) | Word 0 => ret None | _ => undef end
  end.
(** async_type_helper.c:108-114: n iterations from index i on *)
Fixpoint copy_handles (p : memory (option nat)) (k i n : nat) : M heap unit :=
  match n with
  | O => ret tt
  | S n =>
    let* x := handle_at p i in constbuffer_array_inc_ref x ;;;
    let* x' := handle_at p i in write_cell k i (handle_cell x') ;;;
    copy_handles p k (S i) n
  end.
(** async_type_helper.c:75-121. malloc_2(item_count, 8) does not overflow a 64-bit size_t. *)
Definition constbuffer_array_ptr_copy (dest : bool) (src : option (memory (option nat))) (item_count : Z) : M heap (bool * option (option nat)) :=
  if negb dest || (item_count =? 0) then ret (false, None)
  else
    match src with
    | None => ret (true, Some None)
    | Some p =>
      let* block := new_block (Z.to_nat item_count) in
      match block with
      | None => ret (false, Some None)
      | Some k => copy_handles p k 0 (Z.to_nat item_count) ;;; ret (true, Some (Some k))
      end
    end.

(** async_type_helper.c:135-139: n iterations from index i on *)
Fixpoint free_handles (k i n : nat) : M heap unit :=
  match n with
  | O => ret tt
  | S n => let* x := handle_at (Block k) i in constbuffer_array_dec_ref x ;;; free_handles k (S i) n
  end.
(** async_type_helper.c:123-143 *)
Definition constbuffer_array_ptr_free (value : option nat) (item_count : Z) : M heap unit :=
  match value with
  | None => ret tt
  | Some k => if item_count =? 0 then ret tt else free_handles k 0 (Z.to_nat item_count) ;;; free_block k
  end.

(** async_type_helper_ref_counted_handler.h:22-44 and 46-58: DEFINE_ASYNC_TYPE_HELPER_REF_COUNTED_HANDLER, for any state and any functions that count *)
Definition ref_counted_copy {S H} (inc_ref_function : H -> M S unit) (dst : bool) (src : option H) : M S (bool * option (option H)) :=
  if dst then
    match src with None => ret tt | Some h => inc_ref_function h end ;;;
    ret (true, Some src)
  else ret (false, None).
Definition ref_counted_free {S H} (dec_ref_function : H -> M S unit) (arg : option H) : M S unit := match arg with None => ret tt | Some h => dec_ref_function h end.
(** constbuffer_array_sync_wrapper.c:7 *)
Definition CONSTBUFFER_ARRAY_HANDLE_copy : bool -> option nat -> M heap (bool * option (option nat)) := ref_counted_copy (fun h => constbuffer_array_inc_ref (Some h)).
Definition CONSTBUFFER_ARRAY_HANDLE_free : option nat -> M heap unit := ref_counted_free (fun h => constbuffer_array_dec_ref (Some h)).

(** THANDLE_INITIALIZE and THANDLE_ASSIGN of a type whose objects are counted by [inc] and [dec] (c_pal, not in the repository): the new object is counted, then the old one released *)
Definition count_one {S H} (f : H -> M S unit) (h : option H) : M S unit := match h with None => ret tt | Some h => f h end.
Definition THANDLE_INITIALIZE {S H} (inc : H -> M S unit) (t2 : option H) : M S (option H) := count_one inc t2 ;;; ret t2.
Definition THANDLE_ASSIGN {S H} (inc dec : H -> M S unit) (t1 t2 : option H) : M S (option H) := count_one inc t2 ;;; count_one dec t1 ;;; ret t2.
(** async_type_helper_thandle_handler.h:19-36 and 38-50: DEFINE_ASYNC_TYPE_HELPER_THANDLE_HANDLER *)
Definition thandle_copy {S H} (inc : H -> M S unit) (dst : bool) (src : option H) : M S (bool * option (option H)) :=
  if dst then let* x := THANDLE_INITIALIZE inc src in ret (true, Some x) else ret (false, None).
Definition thandle_free {S H} (inc dec : H -> M S unit) (arg : option H) : M S unit :=
  match arg with None => ret tt | Some _ => THANDLE_ASSIGN inc dec arg None ;;; ret tt end.

(** async_type_helper_copy_value_handler.h:24-41 and 43-47: DEFINE_ASYNC_TYPE_HELPER_COPY_VALUE_HANDLER *)
Definition value_copy {S A} (dst : bool) (src : A) : M S (bool * option A) := if dst then ret (true, Some src) else ret (false, None).
Definition value_free {S A} (arg : A) : M S unit := ret tt.
