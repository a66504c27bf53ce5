(** constbuffer_array_splitter (src/constbuffer_array_splitter.c), over the heap of CbaModel. One thread. A pointer to the content of a buffer is the content: the array that is split
    holds the buffer, and contents never change. *)
From Verif Require Import Common CbaModel BatModel.
Local Open Scope cm.
Local Open Scope Z_scope.

Definition size (c : bytes) : Z := Z.of_nat (length c).

(** ** constbuffer_array_splitter_split *)

(** constbuffer_array_splitter.c:95-101: the first buffer that is not empty, and its index *)
Fixpoint skip_leading (fuel : nat) (buffers : option nat) (current_buffer : option bytes) (current_buffer_index : Z) : M heap (bytes * Z) :=
  match fuel, current_buffer with
  | O, _ => nofuel
  | _, None => undef
  | S fuel, Some c =>
    if size c =? 0 then
      let i := u32 (current_buffer_index + 1) in
      let* next := constbuffer_array_get_buffer_content buffers i in
      skip_leading fuel buffers next i
    else ret (c, current_buffer_index)
  end.
(** constbuffer_array_splitter.c:129-144; [more]: remaining_buffer_size - (i + 1) > 0 *)
Fixpoint next_byte (fuel : nat) (buffers : option nat) (more : bool) (current_buffer : option bytes) (current_buffer_index current_buffer_offset : Z) : M heap (option bytes * Z * Z) :=
  match fuel, current_buffer with
  | O, _ => nofuel
  | _, None => ret (None, current_buffer_index, current_buffer_offset)
  | S fuel, Some c =>
    if current_buffer_offset >=? size c then
      let i := u32 (current_buffer_index + 1) in
      let* next := (if more then constbuffer_array_get_buffer_content buffers i else ret None) in
      next_byte fuel buffers more next i 0
    else ret (Some c, current_buffer_index, current_buffer_offset)
  end.
(** constbuffer_array_splitter.c:121-145, from the iteration i on, with n iterations to go. buffer_count only serves to say how often the inner loop may run. *)
Fixpoint copy_bytes (buffers : option nat) (buffer_count : Z) (split_buffer_memory : nat) (remaining_buffer_size : Z) (i n : nat) (at_ : option bytes * Z * Z) : M heap (option bytes * Z * Z) :=
  match n with
  | O => ret at_
  | S n =>
    match at_ with
    | (None, _, _) => undef
    | (Some c, current_buffer_index, current_buffer_offset) =>
      match c !! Z.to_nat current_buffer_offset with
      | None => undef
      | Some z =>
        write_cell split_buffer_memory i (Byte z) ;;;
        let* at_ := next_byte (S (S (Z.to_nat buffer_count))) buffers (u32 (remaining_buffer_size - u32 (Z.of_nat i + 1)) >? 0) (Some c) current_buffer_index (u32 (current_buffer_offset + 1)) in
        copy_bytes buffers buffer_count split_buffer_memory remaining_buffer_size (S i) n at_
      end
    end
  end.
(** constbuffer_array_splitter.c:104-175: what remains when the loop is left, and current_split_buffer_index *)
Fixpoint split_loop (fuel : nat) (buffers : option nat) (buffer_count max_buffer_size : Z) (split_buffers : nat) (remaining_buffer_size : Z) (at_ : option bytes * Z * Z) (current_split_buffer_index : nat)
  : M heap (Z * nat) :=
  match fuel with
  | O => nofuel
  | S fuel =>
    if remaining_buffer_size >? 0 then
      let next_split_buffer_size := Z.min max_buffer_size remaining_buffer_size in
      let* memory := new_block (Z.to_nat next_split_buffer_size) in
      match memory with
      | None => ret (remaining_buffer_size, current_split_buffer_index)
      | Some split_buffer_memory =>
        let* at_ := copy_bytes buffers buffer_count split_buffer_memory remaining_buffer_size 0 (Z.to_nat next_split_buffer_size) at_ in
        let* b := CONSTBUFFER_CreateWithMoveMemory split_buffer_memory next_split_buffer_size in
        match b with
        | None => free_block split_buffer_memory ;;; ret (remaining_buffer_size, current_split_buffer_index)
        | Some b =>
          write_cell split_buffers current_split_buffer_index (Buf b) ;;;
          split_loop fuel buffers buffer_count max_buffer_size split_buffers (u32 (remaining_buffer_size - next_split_buffer_size)) at_ (S current_split_buffer_index)
        end
      end
    else ret (remaining_buffer_size, current_split_buffer_index)
  end.
(** constbuffer_array_splitter.c:17-210. When the creation of line 148 fails, NULL is stored in the slot; here the slot stays unwritten: it is not read. *)
Definition constbuffer_array_splitter_split (buffers : option nat) (max_buffer_size : Z) : M heap (option nat) :=
  match buffers with
  | None => ret None
  | Some _ =>
    if max_buffer_size =? 0 then ret None
    else
      let* buffer_count := buffer_count_of buffers in
      if buffer_count =? 0 then constbuffer_array_create_empty
      else
        let* total := constbuffer_array_get_all_buffers_size buffers true in
        match total with
        | None => ret None
        | Some remaining_buffer_size =>
          if remaining_buffer_size =? 0 then constbuffer_array_create_empty
          else
            let split_buffer_count := u32 (remaining_buffer_size + max_buffer_size - 1) / max_buffer_size in
            let* split := new_block (Z.to_nat split_buffer_count) in
            match split with
            | None => ret None
            | Some split_buffers =>
              let* c := constbuffer_array_get_buffer_content buffers 0 in
              let* first := skip_leading (S (Z.to_nat buffer_count)) buffers c 0 in
              let* rest := split_loop (S (Z.to_nat remaining_buffer_size)) buffers buffer_count max_buffer_size split_buffers remaining_buffer_size (Some (fst first), snd first, 0) 0 in
              let* result := (if fst rest >? 0 then ret None else constbuffer_array_create (Some (read_place (InBlock split_buffers 0))) split_buffer_count) in
              release_cells split_buffers 0 (snd rest) ;;;
              free_block split_buffers ;;;
              ret result
            end
        end
  end.

(** ** constbuffer_array_splitter_split_to_array_of_array *)

(** TARRAY_CREATE_WITH_CAPACITY(CONSTBUFFER_ARRAY_HANDLE) (inc/c_util/tarray_ll.h:103-148): the object and its storage are one block here, obtained by one allocation *)
Definition tarray_create (capacity : Z) : M heap (option nat) := if capacity =? 0 then ret None else new_block (Z.to_nat capacity).

(** constbuffer_array_splitter.c:310-317: the variables of the loop, without i *)
Record vars := Vars { start_buffer_index : Z; start_buffer_offset : Z; current_buffer_count : Z; current_buffer_size : Z; index : nat; buffer_array_count : nat; failed : bool }.
(** constbuffer_array_splitter.c:360-377: i, current_buffer_count, end_buffer_size, has_empty after the loop *)
Fixpoint skip_empty (fuel : nat) (buffers : option nat) (buffer_count i count end_buffer_size : Z) (has_empty : bool) : M heap (Z * Z * Z * bool) :=
  match fuel with
  | O => nofuel
  | S fuel =>
    let i := u32 (i + 1) in
    if i <? buffer_count then
      let* next := constbuffer_array_get_buffer buffers i in
      match next with
      | None => undef
      | Some next =>
        let* next_buffer := CONSTBUFFER_GetContent next in
        CONSTBUFFER_DecRef next ;;;
        if size next_buffer =? 0 then skip_empty fuel buffers buffer_count i (u32 (count + 1)) 0 true
        else ret (u32 (i - 1), count, end_buffer_size, has_empty)
      end
    else ret (i, count, end_buffer_size, has_empty)
  end.
(** A call of constbuffer_array_create_from_buffer_offset_and_count, and temp->arr[index] = its result when that is not NULL *)
Definition store_slice (buffers : option nat) (temp at_index : nat) (start count offset end_buffer_size : Z) : M heap bool :=
  let* arr := constbuffer_array_create_from_buffer_offset_and_count buffers start count offset end_buffer_size in
  match arr with
  | None => ret false
  | Some a => write_cell temp at_index (Arr a) ;;; ret true
  end.
(** constbuffer_array_splitter.c:398-417: what remains of the buffer when the loop is left, and the variables *)
Fixpoint cut (fuel : nat) (buffers : option nat) (temp : nat) (max_buffer_size remaining : Z) (v : vars) : M heap (Z * vars) :=
  match fuel with
  | O => nofuel
  | S fuel =>
    if remaining >? max_buffer_size then
      let* ok := store_slice buffers temp (index v) (start_buffer_index v) 1 (start_buffer_offset v) max_buffer_size in
      if ok : bool then
        cut fuel buffers temp max_buffer_size (u32 (remaining - max_buffer_size))
            (Vars (start_buffer_index v) (u32 (start_buffer_offset v + max_buffer_size)) (current_buffer_count v) (current_buffer_size v) (S (index v)) (S (buffer_array_count v)) (failed v))
      else ret (remaining, Vars (start_buffer_index v) (start_buffer_offset v) (current_buffer_count v) (current_buffer_size v) (index v) (buffer_array_count v) true)
    else ret (remaining, v)
  end.
(** constbuffer_array_splitter.c:419-450 *)
Definition after_cut (buffers : option nat) (temp : nat) (buffer_count i remaining : Z) (v : vars) : M heap vars :=
  if remaining =? 0 then ret (Vars (u32 (i + 1)) 0 0 0 (index v) (buffer_array_count v) (failed v))
  else if i =? u32 (buffer_count - 1) then
    let* ok := store_slice buffers temp (index v) (start_buffer_index v) 1 (start_buffer_offset v) remaining in
    if ok : bool then ret (Vars (start_buffer_index v) (start_buffer_offset v) (current_buffer_count v) (current_buffer_size v) (index v) (S (buffer_array_count v)) (failed v))
    else ret (Vars (start_buffer_index v) (start_buffer_offset v) (current_buffer_count v) (current_buffer_size v) (index v) (buffer_array_count v) true)
  else ret (Vars (start_buffer_index v) (start_buffer_offset v) 1 remaining (index v) (buffer_array_count v) (failed v)).
(** constbuffer_array_splitter.c:324-349: the buffer, of the given size, does not fill the array *)
Definition fits (buffers : option nat) (temp : nat) (buffer_count i sz : Z) (v : vars) : M heap vars :=
  let count := u32 (current_buffer_count v + 1) in
  let total := u32 (current_buffer_size v + sz) in
  if i =? u32 (buffer_count - 1) then
    let* ok := store_slice buffers temp (index v) (start_buffer_index v) count (start_buffer_offset v) sz in
    if ok : bool then ret (Vars (start_buffer_index v) (start_buffer_offset v) count total (index v) (S (buffer_array_count v)) (failed v))
    else ret (Vars (start_buffer_index v) (start_buffer_offset v) count total (index v) (buffer_array_count v) true)
  else ret (Vars (start_buffer_index v) (start_buffer_offset v) count total (index v) (buffer_array_count v) (failed v)).
(** constbuffer_array_splitter.c:350-452: it does *)
Definition fills (buffers : option nat) (temp : nat) (buffer_count max_buffer_size i sz : Z) (v : vars) : M heap (Z * vars) :=
  let count := u32 (current_buffer_count v + 1) in
  let end_buffer_size := u32 (max_buffer_size - current_buffer_size v) in
  let* skipped := (if u32 (current_buffer_size v + sz) =? max_buffer_size then skip_empty (S (Z.to_nat buffer_count)) buffers buffer_count i count end_buffer_size false
                   else ret (i, count, end_buffer_size, false)) in
  let '(i, count, end_buffer_size, has_empty) := skipped in
  let* ok := store_slice buffers temp (index v) (start_buffer_index v) count (start_buffer_offset v) end_buffer_size in
  if ok : bool then
    let remaining := if has_empty : bool then 0 else u32 (sz - end_buffer_size) in
    let* r := cut (S (Z.to_nat remaining)) buffers temp max_buffer_size remaining (Vars i end_buffer_size count (current_buffer_size v) (S (index v)) (S (buffer_array_count v)) (failed v)) in
    let* v := after_cut buffers temp buffer_count i (fst r) (snd r) in
    ret (i, v)
  else ret (i, Vars (start_buffer_index v) (start_buffer_offset v) count (current_buffer_size v) (index v) (buffer_array_count v) true).
(** constbuffer_array_splitter.c:317-458 *)
Fixpoint arrays_loop (fuel : nat) (buffers : option nat) (temp : nat) (buffer_count max_buffer_size i : Z) (v : vars) : M heap vars :=
  match fuel with
  | O => nofuel
  | S fuel =>
    if i <? buffer_count then
      let* curr := constbuffer_array_get_buffer buffers i in
      match curr with
      | None => undef
      | Some curr_buffer =>
        let* c := CONSTBUFFER_GetContent curr_buffer in
        let* r := (if u32 (current_buffer_size v + size c) <? max_buffer_size then let* v := fits buffers temp buffer_count i (size c) v in ret (i, v)
                   else fills buffers temp buffer_count max_buffer_size i (size c) v) in
        CONSTBUFFER_DecRef curr_buffer ;;;
        if failed (snd r) then ret (snd r) else arrays_loop fuel buffers temp buffer_count max_buffer_size (u32 (fst r + 1)) (snd r)
      end
    else ret v
  end.
(** constbuffer_array_splitter.c:212-480: the block of the resulting TARRAY, and what is stored in *split_buffer_arrays_count *)
Definition constbuffer_array_splitter_split_to_array_of_array (buffers : option nat) (max_buffer_size : Z) (split_buffer_arrays_count : bool) : M heap (option (nat * Z)) :=
  match buffers, split_buffer_arrays_count with
  | Some a, true =>
    if max_buffer_size =? 0 then ret None
    else
      let* buffer_count := buffer_count_of buffers in
      let* total := constbuffer_array_get_all_buffers_size buffers true in
      match total with
      | None => ret None
      | Some remaining_buffer_size =>
        if (buffer_count =? 0) || (remaining_buffer_size =? 0) then
          let* temp := tarray_create 1 in
          match temp with
          | None => ret None
          | Some temp =>
            let* e := constbuffer_array_create_empty in
            match e with
            | None => free_block temp ;;; ret None
            | Some e => write_cell temp 0 (Arr e) ;;; ret (Some (temp, 1))
            end
          end
        else if remaining_buffer_size <=? max_buffer_size then
          let* temp := tarray_create 1 in
          match temp with
          | None => ret None
          | Some temp => constbuffer_array_inc_ref (Some a) ;;; write_cell temp 0 (Arr a) ;;; ret (Some (temp, 1))
          end
        else
          let split_array_count := u32 (remaining_buffer_size + max_buffer_size - 1) / max_buffer_size in
          let* temp := tarray_create split_array_count in
          match temp with
          | None => ret None
          | Some temp =>
            let* v := arrays_loop (S (S (Z.to_nat buffer_count))) buffers temp buffer_count max_buffer_size 0 (Vars 0 0 0 0 0 0 false) in
            if failed v then release_arrays temp 0 (buffer_array_count v) ;;; free_block temp ;;; ret None
            else ret (Some (temp, Z.of_nat (buffer_array_count v)))
          end
      end
  | _, _ => ret None
  end.
