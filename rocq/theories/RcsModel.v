(** Model of src/rc_string.c, src/rc_ptr.c, src/rc_string_array.c, src/rc_string_utils.c, src/external_command_helper.c and inc/c_util/thandle_tuple_array.h,
    as code that runs beside other threads (Prog): every access to memory other threads may see is one action.
    Simplifications: the fields of a struct that was just allocated, which nobody else has seen, are written in one go; reference counts are unbounded integers; the two places where a
    string is scanned more than once read it once (it never changes); log output is left out. THANDLE_MALLOC, THANDLE_FREE, THANDLE_ASSIGN, THANDLE_MOVE are those of c_pal's thandle.h:
    a count beside the struct, and a dispose function called when it becomes 0. *)
From Verif Require Import Common Block CMem Prog.
Local Open Scope Z_scope.
Local Open Scope prog_scope.

(** Where RC_STRING's string points to: its own copied_string[], or inside a heap block. *)
Inductive addr := AOwn | ABlock (p : positive) (off : nat).
(** rc_string.c:21-39: the storage type and the fields that come with it. The custom free function of the model frees the heap block that is its context; it may be called only while the block is there. *)
Inductive storage := Copied (copied_string : block) | Moved | WithCustomFree (free_func_context : positive).
(** The structs.
    OStr: rc_string.c:32-39 RC_STRING_INTERNAL; OPtr: RC_PTR (rc_ptr.h), whose free function, in the model, frees the block that is its context and the block ptr;
    OArr: RC_STRING_ARRAY (rc_string_array.h); OCells: an array of handles on the heap; OTup: thandle_tuple_array.h:33-38, count tuples of handles, the tuples one after the other.
    A handle is NULL or a pointer; a cell that was not written is None. *)
Inductive obj :=
| OStr (string : addr) (storage_type : storage) (refs : Z)
| OPtr (pointer : positive) (free_func : bool) (free_func_context : positive) (refs : Z)
| OArr (string_array : ptr) (count : Z)
| OCells (cells : list (option ptr))
| OTup (count : Z) (cells : list (option ptr)).
Notation cst := (st obj).
Notation code A := (prog cst A).

(** The string that begins a block: the bytes before the first zero. Reading a byte that was not written, or past the end, is undefined. *)
Fixpoint cstr (b : block) : option bytes :=
  match b with Some c :: b' => if decide (c = 0) then Some [] else (c ::.) <$> cstr b' | _ => None end.
(** h->string, all of it *)
Definition string_of (h : positive) : M cst bytes :=
  bind (get_obj h) (fun o => match o with
    | OStr a k _ => bind (match a with
                          | AOwn => match k with Copied b => ret b | _ => undef end
                          | ABlock p off => fun s => match mem s !! p with Some b => Done (drop off b, s) | None => Undef end
                          end) (fun b => match cstr b with Some l => ret l | None => undef end)
    | _ => undef
    end).

(** interlocked_increment / interlocked_decrement of the count of h *)
Definition add_count (d : Z) (h : positive) : M cst Z :=
  bind (get_obj h) (fun o => match o with
    | OStr a k n => bind (set_obj h (OStr a k (n + d))) (fun _ => ret (n + d))
    | OPtr p g c n => bind (set_obj h (OPtr p g c (n + d))) (fun _ => ret (n + d))
    | _ => undef
    end).
(** rc_string.c:44-66 rc_string_dispose, rc_ptr.c:19-26 rc_ptr_dispose *)
Definition dispose (o : obj) : code unit :=
  match o with
  | OStr a k _ => match k with
                  | Copied _ => Ret tt
                  | Moved => match a with ABlock p 0%nat => act (free (Some p)) | _ => act undef end
                  | WithCustomFree c => act (free (Some c))
                  end
  | OPtr p g c _ => if g then act (free (Some c)) ;;; act (free (Some p)) else Ret tt
  | _ => act undef
  end.
(** thandle.h: giving up a reference *)
Definition dec_ref (h : positive) : code unit :=
  let* n := act (add_count (-1) h) in
  if decide (n = 0) then let* o := act (get_obj h) in dispose o ;;; act (free_obj h) else Ret tt.
(** thandle.h THANDLE_INITIALIZE(&t, h): one more reference *)
Definition inc_ref (h : positive) : code unit := act (add_count 1 h) ;;; Ret tt.

(** limits.h *)
Definition INT_MAX : Z := 2147483647.
(** sizeof(RC_STRING_INTERNAL) - sizeof(RC_STRING), on 64 bits *)
Definition INTERNAL_EXTRA : Z := 24.
(** rc_string.c:68-104 rc_string_create_impl; [string]: reads the string *)
Definition rc_string_create_impl (string : M cst bytes) : code ptr :=
  let* l := act string in
  if Z.of_nat (length l) + 1 >? UINT64_MAX - INTERNAL_EXTRA then Ret None
  else let* temp_result := act (new_obj (OStr AOwn (Copied (fresh_block (length l + 1))) 1)) in
       match temp_result with
       | None => Ret None
       | Some h => let* l' := act string in
                   if decide (length l' = length l) then act (set_obj h (OStr AOwn (Copied (bytes_block (l' ++ [0]))) 1)) ;;; Ret (Some h) else act undef
       end.
(** rc_string.c:106-121 rc_string_create, of a string in memory of the caller that is not part of the heap *)
Definition rc_string_create (string : option bytes) : code ptr :=
  match string with None => Ret None | Some l => rc_string_create_impl (ret l) end.
(** rc_string.c:123-187 rc_string_create_with_vformat, and 189-196. [text]: what vsnprintf makes of the format and its arguments, None if it returns a negative number;
    [again]: the second call of vsnprintf does not fail. *)
Definition rc_string_create_with_vformat (format : bool) (text : option bytes) (again : bool) : code ptr :=
  if negb format then Ret None
  else match text with
  | None => Ret None
  | Some l =>
    if decide (Z.of_nat (length l) = INT_MAX) then Ret None
    else let* temp_result := act (new_obj (OStr AOwn (Copied (fresh_block (length l + 1))) 1)) in
         match temp_result with
         | None => Ret None
         | Some h => if again then act (set_obj h (OStr AOwn (Copied (bytes_block (l ++ [0]))) 1)) ;;; Ret (Some h)
                     else act (free_obj h) ;;; Ret None
         end
  end.
(** rc_string.c:198-230 rc_string_create_with_move_memory *)
Definition rc_string_create_with_move_memory (string : ptr) : code ptr :=
  match string with
  | None => Ret None
  | Some p => act (new_obj (OStr (ABlock p 0) Moved 1))
  end.
(** rc_string.c:232-272 rc_string_create_with_custom_free *)
Definition rc_string_create_with_custom_free (string : option (positive * nat)) (free_func : bool) (context : positive) : code ptr :=
  match string with
  | Some (p, off) => if free_func then act (new_obj (OStr (ABlock p off) (WithCustomFree context) 1)) else Ret None
  | None => Ret None
  end.
(** rc_string.c:275-298 rc_string_recreate *)
Definition rc_string_recreate (self : ptr) : code ptr :=
  match self with None => Ret None | Some h => rc_string_create_impl (string_of h) end.
(** rc_ptr.c:28-59 rc_ptr_create_with_move_pointer *)
Definition rc_ptr_create_with_move_pointer (p : ptr) (free_func : bool) (context : positive) : code ptr :=
  match p with None => Ret None | Some p => act (new_obj (OPtr p free_func context 1)) end.

(** The handle in the array at p, at index i. *)
Definition cells_of (o : obj) : option (list (option ptr)) := match o with OCells c | OTup _ c => Some c | _ => None end.
Definition with_cells (o : obj) (c : list (option ptr)) : obj := match o with OTup n _ => OTup n c | _ => OCells c end.
Definition cell (p : positive) (i : nat) : M cst ptr :=
  bind (get_obj p) (fun o => match cells_of o with Some c => match c !! i with Some (Some x) => ret x | _ => undef end | None => undef end).
(** THANDLE_INITIALIZE, THANDLE_INITIALIZE_MOVE of a cell, and the last step of the others: the cell becomes x *)
Definition set_cell (p : positive) (i : nat) (x : ptr) : M cst unit :=
  bind (get_obj p) (fun o => match cells_of o with Some c => if decide (i < length c)%nat then set_obj p (with_cells o (<[i := Some x]> c)) else undef | None => undef end).
(** THANDLE_ASSIGN(&cell, NULL) *)
Definition assign_null (p : positive) (i : nat) : code unit :=
  let* old := act (cell p i) in
  match old with None => Ret tt | Some h => dec_ref h ;;; act (set_cell p i None) end.
(** THANDLE_MOVE(&cell, &x) *)
Definition move_to_cell (p : positive) (i : nat) (x : ptr) : code unit :=
  let* old := act (cell p i) in
  match old with None => Ret tt | Some h => dec_ref h end ;;; act (set_cell p i x).
(** for (i = i0; i < i0 + n; ++i) cell i = NULL *)
Fixpoint init_cells (p : positive) (i n : nat) : code unit :=
  match n with O => Ret tt | S n' => act (set_cell p i None) ;;; init_cells p (S i) n' end.
(** for (i = i0; i < i0 + n; ++i) if (cell i != NULL) THANDLE_ASSIGN(&cell i, NULL) *)
Fixpoint release_cells (p : positive) (i n : nat) : code unit :=
  match n with O => Ret tt | S n' => assign_null p i ;;; release_cells p (S i) n' end.

(** rc_string_array.c:18-73 rc_string_array_create; count * 8 is no more than SIZE_MAX *)
Definition rc_string_array_create (count : Z) : code ptr :=
  let* result := act (new_obj (OArr None 0)) in
  match result with
  | None => Ret None
  | Some a =>
    if count >? 0 then
      let* string_array := act (new_obj (OCells (replicate (Z.to_nat count) None))) in
      match string_array with
      | None => act (free_obj a) ;;; Ret None
      | Some p => act (set_obj a (OArr (Some p) count)) ;;; init_cells p 0 (Z.to_nat count) ;;; Ret (Some a)
      end
    else act (set_obj a (OArr None count)) ;;; Ret (Some a)
  end.
(** the fields of the array at a *)
Definition arr_fields (a : positive) : M cst (ptr * Z) := bind (get_obj a) (fun o => match o with OArr p n => ret (p, n) | _ => undef end).
(** rc_string_array.c:75-100 rc_string_array_destroy *)
Definition rc_string_array_destroy (a : ptr) : code unit :=
  match a with
  | None => Ret tt
  | Some a =>
    let* x := act (arr_fields a) in let '(p, n) := x in
    match p with
    | Some p => release_cells p 0 (Z.to_nat n) ;;; act (free_obj p)
    | None => if n >? 0 then act undef else Ret tt
    end ;;;
    act (free_obj a)
  end.
(** string_array of the array at a, to be indexed *)
Definition arr_cells (a : positive) : M cst positive := bind (arr_fields a) (fun '(p, _) => match p with Some p => ret p | None => undef end).

(** rc_string_utils.c:69-104, from the character i of [s] on; s: the string and its terminator; n: how many are left. False when the loop was left by break. *)
Fixpoint split_loop (a : positive) (s : bytes) (delimiter : Z) (i n split_start : nat) (split_index : nat) : code bool :=
  match n with
  | O => Ret true
  | S n' =>
    let c := nth i s 0 in
    if decide (c = delimiter \/ c = 0) then
      let* temp_split := act (malloc (i - split_start + 1)) in
      match temp_split with
      | None => Ret false
      | Some t =>
        act (store (Some t) 0 (bytes_block (take (i - split_start) (drop split_start s)))) ;;;
        act (store (Some t) (i - split_start) (bytes_block [0])) ;;;
        let* split := rc_string_create_with_move_memory (Some t) in
        match split with
        | None => act (free (Some t)) ;;; Ret false
        | Some h =>
          let* p := act (arr_cells a) in
          move_to_cell p split_index (Some h) ;;;
          split_loop a s delimiter (S i) n' (i + 1) (S split_index)
        end
      end
    else split_loop a s delimiter (S i) n' split_start split_index
  end.
(** rc_string_utils.c:36-43: how often the character occurs, plus one, in 32 bits *)
Definition num_splits (s : bytes) (delimiter : Z) : Z := u32 (foldl (fun n c => if decide (c = delimiter) then u32 (n + 1) else n) 0 s + 1).
(** rc_string_utils.c:19-120 rc_string_utils_split_by_char *)
Definition rc_string_utils_split_by_char (str : ptr) (delimiter : Z) : code ptr :=
  match str with
  | None => Ret None
  | Some h =>
    let* s := act (string_of h) in
    let n := num_splits s delimiter in
    let* result := rc_string_array_create n in
    match result with
    | None => Ret None
    | Some a =>
      if decide (n = 1) then let* p := act (arr_cells a) in inc_ref h ;;; move_to_cell p 0 (Some h) ;;; Ret (Some a)
      else let* all := split_loop a (s ++ [0]) delimiter 0 (length s + 1) 0 0 in
           if (all : bool) then Ret (Some a) else rc_string_array_destroy (Some a) ;;; Ret None
    end
  end.

(** thandle_tuple_array.h:69-72: the fields of the tuples from i on *)
Fixpoint init_tuples (p : positive) (i n fields : nat) : code unit :=
  match n with O => Ret tt | S n' => init_cells p (i * fields) fields ;;; init_tuples p (S i) n' fields end.
(** thandle_tuple_array.h:51-81, for tuples of this many fields *)
Definition tuple_array_create (fields : nat) (count : Z) : code ptr :=
  let* result := act (new_obj (OTup count (replicate (Z.to_nat count * fields) None))) in
  match result with
  | None => Ret None
  | Some p => init_tuples p 0 (Z.to_nat count) fields ;;; Ret (Some p)
  end.
(** thandle_tuple_array.h:101-104 *)
Fixpoint release_tuples (p : positive) (i n fields : nat) : code unit :=
  match n with O => Ret tt | S n' => release_cells p (i * fields) fields ;;; release_tuples p (S i) n' fields end.
(** thandle_tuple_array.h:89-108 *)
Definition tuple_array_destroy (fields : nat) (t : ptr) : code unit :=
  match t with
  | None => Ret tt
  | Some p =>
    let* n := act (bind (get_obj p) (fun o => match o with OTup n _ => ret n | _ => undef end)) in
    release_tuples p 0 (Z.to_nat n) fields ;;; act (free_obj p)
  end.

(** fgets(buffer, n + 1, pipe), when the pipe still has [text]: at most n characters, up to the first newline, and what is left in the pipe. (It returns NULL when text is empty.) *)
Fixpoint fgets (n : nat) (text : bytes) : bytes * bytes :=
  match n, text with
  | S n', c :: text' => if decide (c = 10) then ([c], text') else let '(l, rest) := fgets n' text' in (c :: l, rest)
  | _, _ => ([], text)
  end.
(** external_command_helper.c:23 *)
Definition COMMAND_OUTPUT_BUFFER_SIZE : nat := 2048.
(** The successive buffers that fgets fills, until it returns NULL. *)
Fixpoint reads (fuel : nat) (text : bytes) : list bytes :=
  match fuel, text with
  | S fuel', _ :: _ => let '(l, rest) := fgets (COMMAND_OUTPUT_BUFFER_SIZE - 1) text in l :: reads fuel' rest
  | _, _ => []
  end.
(** strlen and strcspn(.., "\r\n") of a buffer that fgets filled and terminated *)
Fixpoint span_len (stop : Z -> bool) (l : bytes) : nat :=
  match l with c :: l' => if stop c then O else S (span_len stop l') | [] => O end.
Definition buf_strlen : bytes -> nat := span_len (fun c => c =? 0).
Definition buf_strcspn : bytes -> nat := span_len (fun c => (c =? 0) || (c =? 13) || (c =? 10)).

(** realloc_flex of an array of n handles, to n + 1; the model always moves the array *)
Definition grow_cells (line_array : ptr) (n : nat) : M cst ptr :=
  match line_array with
  | None => new_obj (OCells (replicate (S n) None))
  | Some p => bind (get_obj p) (fun o => match o with
                | OCells c => bind (new_obj (OCells (c ++ [None]))) (fun q => match q with None => ret None | Some q => bind (free_obj p) (fun _ => ret (Some q)) end)
                | _ => undef
                end)
  end.
(** external_command_helper.c:66-125, given the buffers that fgets fills: line_array, line_count, failed *)
Fixpoint read_loop (bufs : list bytes) (line_array : ptr) (line_count : nat) (failed : bool) : code (ptr * nat * bool) :=
  match bufs with
  | [] => Ret (line_array, line_count, failed)
  | buf :: bufs' =>
    if failed then read_loop bufs' line_array line_count failed
    else if decide (buf_strlen buf = buf_strcspn buf \/ COMMAND_OUTPUT_BUFFER_SIZE <= buf_strcspn buf)%nat then read_loop bufs' line_array line_count true
    else
      let* line_array_temp := act (grow_cells line_array line_count) in
      match line_array_temp with
      | None => read_loop bufs' line_array line_count true
      | Some p =>
        let* temp := rc_string_create (Some (take (buf_strcspn buf) buf)) in
        match temp with
        | None => act (set_cell p line_count None) ;;; read_loop bufs' (Some p) (S line_count) true
        | Some h => act (set_cell p line_count (Some h)) ;;; read_loop bufs' (Some p) (S line_count) failed
        end
      end
  end.
(** external_command_helper.c:160-163 *)
Fixpoint move_lines (a : positive) (from : ptr) (i n : nat) : code unit :=
  match n with
  | O => Ret tt
  | S n' => match from with
            | None => act undef
            | Some q => let* x := act (cell q i) in
                        act (set_cell q i None) ;;;
                        let* p := act (arr_cells a) in
                        move_to_cell p i x ;;; move_lines a from (S i) n'
            end
  end.
Inductive EXTERNAL_COMMAND_RESULT := EXTERNAL_COMMAND_OK | EXTERNAL_COMMAND_INVALID_ARGS | EXTERNAL_COMMAND_ERROR.
(** external_command_helper.c:25-191 external_command_helper_execute.
    [command]: NULL, or its characters; [lines], [return_code]: the pointers are not NULL; [popen]: the command could be started; [text]: its output; [read_error]: reading ended with an error, not with the
    end of the output; [pclose]: the result of pipe_pclose and the exit code.
    Answers: the result, what *lines and *return_code become, and whether the pipe that was opened was closed. *)
Definition external_command_helper_execute (command : option bytes) (lines return_code popen : bool) (text : bytes) (read_error : bool) (pclose : Z * Z)
    : code (EXTERNAL_COMMAND_RESULT * ptr * option Z * bool) :=
  match command, lines, return_code with
  | Some (_ :: _), true, true =>
    if negb popen then Ret (EXTERNAL_COMMAND_ERROR, None, None, true)
    else
      let* x := read_loop (reads (length text) text) None 0 false in let '(line_array, line_count, failed) := x in
      let* y :=
        (if negb failed && read_error then Ret (EXTERNAL_COMMAND_ERROR, None, None, false, line_array)
         else if failed || negb (pclose.1 =? 0) then Ret (EXTERNAL_COMMAND_ERROR, None, None, true, line_array)
         else
           let* rc_string_array_temp := rc_string_array_create (Z.of_nat line_count) in
           match rc_string_array_temp with
           | None => Ret (EXTERNAL_COMMAND_ERROR, None, None, true, line_array)
           | Some a => move_lines a line_array 0 line_count ;;;
                       match line_array with Some q => act (free_obj q) | None => Ret tt end ;;;
                       Ret (EXTERNAL_COMMAND_OK, Some a, Some pclose.2, true, None)
           end) in let '(result, out_lines, out_code, closed, line_array') := y in
      match line_array' with
      | Some q => release_cells q 0 line_count ;;; act (free_obj q)
      | None => Ret tt
      end ;;;
      Ret (result, out_lines, out_code, closed)
  | _, _, _ => Ret (EXTERNAL_COMMAND_INVALID_ARGS, None, None, true)
  end.
