(** constbuffer_array_batcher_nv (src/constbuffer_array_batcher_nv.c), over the heap of CbaModel. write_uint32_t and read_uint32_t (memory_data.c, modelled in
    MemDataModel) are taken by what they are proved to do there: big-endian words. One thread. *)
From Verif Require Import Common CbaModel MemDataSpec.
Local Open Scope cm.
Local Open Scope Z_scope.

(** What is in memory where a cell is stored; a handle there is of no use as data *)
Definition cell_bytes (c : option cell) : option bytes := match c with Some (Word z) => Some (be_bytes 4 z) | Some (Byte z) => Some [z] | _ => None end.
(** CONSTBUFFER_CreateWithMoveMemory (constbuffer.c:152-184): the block becomes the memory of the buffer and is not an object of the caller any more *)
Definition CONSTBUFFER_CreateWithMoveMemory (k : nat) (size : Z) : M heap (option nat) := fun s =>
  match blocks s !! k with
  | None => Undef
  | Some c =>
    match mapM cell_bytes c with
    | None => Undef
    | Some l =>
      if decide (size = Z.of_nat (length (concat l))) then
        (let* b := new_buffer (concat l) in
         match b with None => ret None | Some x => free_block k ;;; ret (Some x) end) s
      else Undef
    end
  end.

(** constbuffer_array_batcher_nv.c:37-44: i reaches count, that is, no payload is NULL *)
Fixpoint no_null (payloads : list (option nat)) (i n : nat) : M heap bool :=
  match n with
  | O => ret true
  | S n => let* p := item payloads i in match p with None => ret false | Some _ => no_null payloads (S i) n end
  end.
(** constbuffer_array_get_buffer_count(payloads[i], &buffer_count), the result of which is not looked at *)
Definition buffer_count_of (a : option nat) : M heap Z := let* n := constbuffer_array_get_buffer_count a true in match n with Some n => ret n | None => undef end.
(** constbuffer_array_batcher_nv.c:69-88: total_buffer_count, None when the loop is left early *)
Fixpoint write_counts (payloads : list (option nat)) (header i n : nat) (total_buffer_count : Z) : M heap (option Z) :=
  match n with
  | O => ret (Some total_buffer_count)
  | S n =>
    let* p := item payloads i in
    let* buffer_count := buffer_count_of p in
    write_cell header (S i) (Word buffer_count) ;;;
    let total := u32 (total_buffer_count + buffer_count) in
    if (total <? buffer_count) || (total =? UINT32_MAX) then ret None else write_counts payloads header (S i) n total
  end.
(** The loops of constbuffer_array_batcher_nv.c:129-132 and 275-278: n handles from index i of the array a on, to the cells of the block k from d on.
    constbuffer_array_get_buffer returns NULL for an index outside of the array; here that is undefined: see C22_wrap_refuted for what happens in the C code. *)
Fixpoint gather (a : option nat) (k d : nat) (i : Z) (n : nat) : M heap unit :=
  match n with
  | O => ret tt
  | S n =>
    let* b := constbuffer_array_get_buffer a i in
    match b with
    | None => undef
    | Some b => write_cell k d (Buf b) ;;; gather a k (S d) (u32 (i + 1)) n
    end
  end.
(** constbuffer_array_batcher_nv.c:122-133: the value of current_index at the end *)
Fixpoint gather_all (payloads : list (option nat)) (k i n : nat) (current_index : nat) : M heap nat :=
  match n with
  | O => ret current_index
  | S n =>
    let* p := item payloads i in
    let* buffer_count := buffer_count_of p in
    gather p k current_index 0 (Z.to_nat buffer_count) ;;;
    gather_all payloads k (S i) n (current_index + Z.to_nat buffer_count)
  end.
(** constbuffer_array_batcher_nv.c:136-139 and 282-285: n buffers from cell i on are released *)
Fixpoint release_cells (k i n : nat) : M heap unit :=
  match n with
  | O => ret tt
  | S n => let* c := read_cell k i in match c with Buf b => CONSTBUFFER_DecRef b | _ => undef end ;;; release_cells k (S i) n
  end.
(** constbuffer_array_batcher_nv.c:302-305: n arrays from cell i on are released *)
Fixpoint release_arrays (k i n : nat) : M heap unit :=
  match n with
  | O => ret tt
  | S n => let* c := read_cell k i in match c with Arr a => constbuffer_array_dec_ref (Some a) | _ => undef end ;;; release_arrays k (S i) n
  end.

(** constbuffer_array_batcher_nv.c:15-169 *)
Definition constbuffer_array_batcher_nv_batch (payloads : option (list (option nat))) (count : Z) : M heap (option nat) :=
  match payloads with
  | None => ret None
  | Some l =>
    if (count =? 0) || (count >? UINT32_MAX / 4 - 1) then ret None
    else
      let* ok := no_null l 0 (Z.to_nat count) in
      if negb ok then ret None
      else
        let* header := new_block (Z.to_nat (u32 (count + 1))) in
        match header with
        | None => ret None
        | Some header_memory =>
          write_cell header_memory 0 (Word count) ;;;
          let* total := write_counts l header_memory 0 (Z.to_nat count) 0 in
          match total with
          | None => free_block header_memory ;;; ret None
          | Some total_buffer_count =>
            let* all := new_block (Z.to_nat (u32 (total_buffer_count + 1))) in
            match all with
            | None => free_block header_memory ;;; ret None
            | Some all_buffers =>
              let* h := CONSTBUFFER_CreateWithMoveMemory header_memory (u32 (4 * u32 (count + 1))) in
              match h with
              | None => free_block all_buffers ;;; free_block header_memory ;;; ret None
              | Some b =>
                write_cell all_buffers 0 (Buf b) ;;;
                let* current_index := gather_all l all_buffers 0 (Z.to_nat count) 1 in
                let* result := constbuffer_array_create (Some (read_place (InBlock all_buffers 0))) (u32 (total_buffer_count + 1)) in
                release_cells all_buffers 0 current_index ;;;
                free_block all_buffers ;;;
                ret result
              end
            end
          end
        end
  end.

(** read_uint32_t(&header_buffer_memory[i], ...) *)
Definition read_word (content : bytes) (i : nat) : M heap Z :=
  if decide (4 * i + 4 <= length content)%nat then ret (be_value (take 4 (drop (4 * i) content))) else undef.
(** constbuffer_array_batcher_nv.c:260-287: the value of result[i]; NULL also when the malloc of line 266 fails, which leaves the loop in the same way *)
Definition one_payload (batch : option nat) (buffer_index buffer_count : Z) : M heap (option nat) :=
  if buffer_count =? 0 then constbuffer_array_create_empty
  else
    let* p := new_block (Z.to_nat buffer_count) in
    match p with
    | None => ret None
    | Some payload_buffers =>
      gather batch payload_buffers 0 buffer_index (Z.to_nat buffer_count) ;;;
      let* r := constbuffer_array_create (Some (read_place (InBlock payload_buffers 0))) buffer_count in
      release_cells payload_buffers 0 (Z.to_nat buffer_count) ;;;
      free_block payload_buffers ;;;
      ret r
    end.
(** constbuffer_array_batcher_nv.c:244-296: the value of i at the end *)
Fixpoint all_payloads (batch : option nat) (content : bytes) (batch_buffer_count : Z) (result i n : nat) (buffer_index : Z) : M heap nat :=
  match n with
  | O => ret i
  | S n =>
    let* buffer_count := read_word content (S i) in
    if u32 (buffer_index + buffer_count) >? batch_buffer_count then ret i
    else
      let* r := one_payload batch buffer_index buffer_count in
      match r with
      | None => ret i
      | Some a => write_cell result i (Arr a) ;;; all_payloads batch content batch_buffer_count result (S i) n (u32 (buffer_index + buffer_count))
      end
  end.
(** constbuffer_array_batcher_nv.c:171-327: the block with the payloads, and what is stored in *payload_count *)
Definition constbuffer_array_batcher_nv_unbatch (batch : option nat) (payload_count : bool) : M heap (option (nat * Z)) :=
  match batch, payload_count with
  | Some _, true =>
    let* batch_buffer_count := buffer_count_of batch in
    if batch_buffer_count =? 0 then ret None
    else
      let* c := constbuffer_array_get_buffer_content batch 0 in
      match c with
      | None => undef
      | Some content =>
        let size := Z.of_nat (length content) in
        if (size <? 4) || negb (size mod 4 =? 0) then ret None
        else
          let* batch_payload_count := read_word content 0 in
          if batch_payload_count =? 0 then ret None
          else if negb (size / 4 - 1 =? batch_payload_count) then ret None
          else
            let* r := new_block (Z.to_nat batch_payload_count) in
            match r with
            | None => ret None
            | Some result =>
              let* i := all_payloads batch content batch_buffer_count result 0 (Z.to_nat batch_payload_count) 1 in
              if decide (i < Z.to_nat batch_payload_count)%nat then release_arrays result 0 i ;;; free_block result ;;; ret None
              else ret (Some (result, batch_payload_count))
            end
      end
  | _, _ => ret None
  end.
