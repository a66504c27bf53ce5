(** Model of src/strings.c over the heap of CMem, with char* arguments as in CStr. A handle is NULL or the address of a STRING struct.
    0 is success, 1 stands for MU_FAILURE. Characters are bytes 0..255 (the code never depends on the signedness of char:
    STRING_new_JSON leaves its first loop before comparing a character of 128 or more). *)
From Verif Require Import Common Block CMem CStr.
Local Open Scope cmonad_scope.

(** strings.c:20-23 *)
Record STRING := Str { s_ : ptr }.
Notation MS := (M (st STRING)).

(** s_ as a const char* (never NULL in a live STRING). *)
Definition own (p : ptr) : MS csrc := match p with Some l => ret (CPtr l) | None => undef end.

(** strings.c:28-52. The struct is malloc'd uninitialised and s is set next (NULL stands for the unset field). *)
Definition STRING_new : MS ptr :=
  let* r := new_obj (Str None) in
  match r with
  | None => ret None
  | Some h =>
    let* p := malloc 1 in
    set_obj h (Str p) ;;;
    match p with
    | Some _ => set_char p 0 0 ;;; ret r
    | None => free_obj h ;;; ret None
    end
  end.

(** The allocation pattern common to the constructors: the struct, then result->s = [alloc], then [fill]; the struct is freed when the second
    allocation fails (e.g. strings.c:64-82). *)
Definition construct_with (alloc : MS ptr) (fill : ptr -> MS unit) : MS ptr :=
  let* r := new_obj (Str None) in
  match r with
  | None => ret None
  | Some h =>
    let* p := alloc in
    set_obj h (Str p) ;;;
    match p with
    | None => free_obj h ;;; ret None
    | Some _ => fill p ;;; ret r
    end
  end.

(** strings.c:55-89 *)
Definition STRING_clone (handle : ptr) : MS ptr :=
  match handle with
  | None => ret None
  | Some h =>
    let* r := new_obj (Str None) in
    match r with
    | None => ret None
    | Some h' =>
      let* source := get_obj h in
      let* src := own (s_ source) in
      let* sourceLen := strlen src in
      let* p := malloc_flex 1 sourceLen 1 in
      set_obj h' (Str p) ;;;
      match p with
      | None => free_obj h' ;;; ret None
      | Some _ => strcpy_n p 0 src 0 (sourceLen + 1) ;;; ret r
      end
    end
  end.

(** strings.c:92-129 (the struct is allocated before strlen is called; strlen has no effect, so the order is not kept) *)
Definition STRING_construct (psz : option csrc) : MS ptr :=
  match psz with
  | None => ret None
  | Some psz =>
    let* nLen := strlen psz in
    construct_with (malloc_flex 1 nLen 1) (fun p => strcpy_n p 0 psz 0 (nLen + 1))
  end.

(** What formatting does: [FmtError]: vsnprintf returns a negative value; [Fmt text second]: it needs (length text) characters, and
    the call that writes them either writes them and a terminator ([None]), or fails after having written [junk]. *)
Inductive fmt := FmtError | Fmt (text : bytes) (second : option block).
(** vsnprintf(p + off, at least length text + 1, ...); false is a negative result. *)
Definition vsnprintf (p : ptr) (off : nat) (text : bytes) (second : option block) : MS bool :=
  match second with
  | None => store p off (bytes_block (text ++ [0%Z])) ;;; ret true
  | Some junk => store p off (take (length text + 1) junk) ;;; ret false
  end.

(** strings.c:134-207; [format]: None is a NULL format. *)
Definition STRING_construct_sprintf (format : option fmt) : MS ptr :=
  match format with
  | None => ret None
  | Some FmtError => ret None
  | Some (Fmt [] _) => STRING_new
  | Some (Fmt text second) =>
    let* r := new_obj (Str None) in
    match r with
    | None => ret None
    | Some h =>
      let* p := malloc (length text + 1) in
      set_obj h (Str p) ;;;
      match p with
      | None => free_obj h ;;; ret None
      | Some _ =>
        let* ok := vsnprintf p 0 text second in
        if (ok : bool) then ret r else free p ;;; free_obj h ;;; ret None
      end
    end
  end.

(** strings.c:213-233: takes over a malloc'd block. *)
Definition STRING_new_with_memory (memory : ptr) : MS ptr :=
  match memory with
  | None => ret None
  | Some _ =>
    let* r := new_obj (Str None) in
    match r with
    | None => ret None
    | Some h => set_obj h (Str memory) ;;; ret r
    end
  end.

(** strings.c:236-263 *)
Definition STRING_new_quoted (source : option csrc) : MS ptr :=
  match source with
  | None => ret None
  | Some source =>
    let* sourceLength := strlen source in
    construct_with (malloc_flex 3 sourceLength 1) (fun p =>
      set_char p 0 34 ;;;
      strcpy_n p 1 source 0 sourceLength ;;;
      set_char p (sourceLength + 1) 34 ;;;
      set_char p (sourceLength + 2) 0)
  end.

(** strings.c:18 *)
Definition hexToASCII : list Z := [48; 49; 50; 51; 52; 53; 54; 55; 56; 57; 65; 66; 67; 68; 69; 70]%Z.
(** strings.c:283-305: the counting loop; [None]: left by the break. *)
Fixpoint json_count (source : csrc) (i todo nControl nEscape : nat) : MS (option (nat * nat)) :=
  match todo with
  | O => ret (Some (nControl, nEscape))
  | S todo =>
    let* c := char_at source i in
    if decide (128 <= c)%Z then ret None
    else if decide (c <= 31)%Z then json_count source (S i) todo (S nControl) nEscape
    else if decide (c = 34 \/ c = 92 \/ c = 47)%Z then json_count source (S i) todo nControl (S nEscape)
    else json_count source (S i) todo nControl nEscape
  end.
(** result->s[pos++] = v for each v *)
Fixpoint put_chars (p : ptr) (pos : nat) (vs : list Z) : MS nat :=
  match vs with
  | [] => ret pos
  | v :: vs => set_char p pos v ;;; put_chars p (S pos) vs
  end.
(** strings.c:353-385: the writing loop *)
Fixpoint json_write (source : csrc) (p : ptr) (i todo pos : nat) : MS nat :=
  match todo with
  | O => ret pos
  | S todo =>
    let* c := char_at source i in
    let* pos :=
      (if decide (c <= 31)%Z then
         let* hi := at_ hexToASCII (Z.to_nat (Z.shiftr (Z.land c 240) 4)) in
         let* lo := at_ hexToASCII (Z.to_nat (Z.land c 15)) in
         put_chars p pos [92; 117; 48; 48; hi; lo]%Z
       else if decide (c = 34)%Z then put_chars p pos [92; 34]%Z
       else if decide (c = 92)%Z then put_chars p pos [92; 92]%Z
       else if decide (c = 47)%Z then put_chars p pos [92; 47]%Z
       else put_chars p pos [c]) in
    json_write source p (S i) todo pos
  end.
(** strings.c:268-409. The size computation is over size_t: the checks at 322-338 are comparisons that cannot overflow. *)
Definition STRING_new_JSON (source : option csrc) : MS ptr :=
  match source with
  | None => ret None
  | Some source =>
    let* vlen := strlen source in
    let* counts := json_count source 0 vlen 0 0 in
    match counts with
    | None => ret None
    | Some (nControl, nEscape) =>
      let* r := new_obj (Str None) in
      match r with
      | None => ret None   (* strings.c:402: free(NULL) *)
      | Some h =>
        if decide (Z.of_nat vlen > size_max - 3)%Z then free_obj h ;;; ret None
        else if decide (size_max - Z.of_nat nEscape < Z.of_nat vlen + 3)%Z then free_obj h ;;; ret None
        else if decide ((size_max - (Z.of_nat vlen + 3 + Z.of_nat nEscape)) / 5 < Z.of_nat nControl)%Z then free_obj h ;;; ret None
        else
          let* p := malloc (vlen + 5 * nControl + nEscape + 3) in
          set_obj h (Str p) ;;;
          match p with
          | None => free_obj h ;;; ret None
          | Some _ =>
            let* pos := put_chars p 0 [34%Z] in
            let* pos := json_write source p 0 vlen pos in
            let* pos := put_chars p pos [34%Z] in
            set_char p pos 0 ;;;
            ret r
          end
      end
    end
  end.

(** strings.c:415-444 *)
Definition STRING_concat (handle : ptr) (s2 : option csrc) : MS Z :=
  match handle, s2 with
  | Some h, Some s2 =>
    let* o := get_obj h in
    let* s1 := own (s_ o) in
    let* s1Length := strlen s1 in
    let* s2Length := strlen s2 in
    let* temp := realloc_flex (s_ o) s1Length (s2Length + 1) 1 in
    match temp with
    | None => ret 1%Z
    | Some _ => set_obj h (Str temp) ;;; strcpy_n temp s1Length s2 0 (s2Length + 1) ;;; ret 0%Z
    end
  | _, _ => ret 1%Z
  end.

(** strings.c:450-483: src->s is read again after dest->s has been assigned. *)
Definition STRING_concat_with_STRING (s1 s2 : ptr) : MS Z :=
  match s1, s2 with
  | Some h1, Some h2 =>
    let* dest := get_obj h1 in
    let* src := get_obj h2 in
    let* c1 := own (s_ dest) in
    let* s1Length := strlen c1 in
    let* c2 := own (s_ src) in
    let* s2Length := strlen c2 in
    let* temp := realloc_flex (s_ dest) s1Length (s2Length + 1) 1 in
    match temp with
    | None => ret 1%Z
    | Some _ =>
      set_obj h1 (Str temp) ;;;
      let* src := get_obj h2 in
      let* c2 := own (s_ src) in
      strcpy_n temp s1Length c2 0 (s2Length + 1) ;;; ret 0%Z
    end
  | _, _ => ret 1%Z
  end.

(** strings.c:489-526 *)
Definition STRING_copy (handle : ptr) (s2 : option csrc) : MS Z :=
  match handle, s2 with
  | Some h, Some s2 =>
    let* o := get_obj h in
    let* s1 := own (s_ o) in
    if (match s1, s2 with CPtr p, CPtr q => bool_decide (p = q) | _, _ => false end) then ret 0%Z
    else
      let* s2Length := strlen s2 in
      let* temp := realloc_flex (s_ o) 1 s2Length 1 in
      match temp with
      | None => ret 1%Z
      | Some _ => set_obj h (Str temp) ;;; memmove temp 0 s2 (s2Length + 1) ;;; ret 0%Z
      end
  | _, _ => ret 1%Z
  end.

(** strings.c:532-568 *)
Definition STRING_copy_n (handle : ptr) (s2 : option csrc) (n : nat) : MS Z :=
  match handle, s2 with
  | Some h, Some s2 =>
    let* o := get_obj h in
    let* s2Length := strlen s2 in
    let s2Length := if decide (n < s2Length) then n else s2Length in
    let* temp := realloc_flex (s_ o) 1 s2Length 1 in
    match temp with
    | None => ret 1%Z
    | Some _ =>
      set_obj h (Str temp) ;;;
      strcpy_n temp 0 s2 0 s2Length ;;;
      set_char temp s2Length 0 ;;; ret 0%Z
    end
  | _, _ => ret 1%Z
  end.

(** strings.c:573-645 *)
Definition STRING_sprintf (handle : ptr) (format : option fmt) : MS Z :=
  match handle, format with
  | Some h, Some FmtError => ret 1%Z
  | Some h, Some (Fmt [] _) => ret 0%Z
  | Some h, Some (Fmt text second) =>
    let* o := get_obj h in
    let* s1 := own (s_ o) in
    let* s1Length := strlen s1 in
    let* temp := realloc_flex (s_ o) s1Length (length text + 1) 1 in
    match temp with
    | None => ret 1%Z
    | Some _ =>
      set_obj h (Str temp) ;;;
      let* ok := vsnprintf temp s1Length text second in
      if (ok : bool) then ret 0%Z
      else set_char temp s1Length 0 ;;; ret 1%Z
    end
  | _, _ => ret 1%Z
  end.

(** strings.c:651-681 *)
Definition STRING_quote (handle : ptr) : MS Z :=
  match handle with
  | None => ret 1%Z
  | Some h =>
    let* o := get_obj h in
    let* s1 := own (s_ o) in
    let* s1Length := strlen s1 in
    let* temp := realloc_flex (s_ o) 3 s1Length 1 in
    match temp with
    | None => ret 1%Z
    | Some l =>
      set_obj h (Str temp) ;;;
      memmove temp 1 (CPtr l) s1Length ;;;
      set_char temp 0 34 ;;;
      set_char temp (s1Length + 1) 34 ;;;
      set_char temp (s1Length + 2) 0 ;;; ret 0%Z
    end
  end.

(** strings.c:685-711 *)
Definition STRING_empty (handle : ptr) : MS Z :=
  match handle with
  | None => ret 1%Z
  | Some h =>
    let* o := get_obj h in
    let* temp := realloc (s_ o) 1 in
    match temp with
    | None => ret 1%Z
    | Some _ => set_obj h (Str temp) ;;; set_char temp 0 0 ;;; ret 0%Z
    end
  end.

(** strings.c:715-725 *)
Definition STRING_delete (handle : ptr) : MS unit :=
  match handle with
  | None => ret tt
  | Some h => let* o := get_obj h in free (s_ o) ;;; set_obj h (Str None) ;;; free_obj h
  end.

(** strings.c:728-741 *)
Definition STRING_c_str (handle : ptr) : MS ptr :=
  match handle with
  | None => ret None
  | Some h => let* o := get_obj h in ret (s_ o)
  end.

(** strings.c:744-754 *)
Definition STRING_length (handle : ptr) : MS nat :=
  match handle with
  | None => ret 0
  | Some h => let* o := get_obj h in let* s := own (s_ o) in strlen s
  end.

(** strings.c:757-802 *)
Definition STRING_construct_n (psz : option csrc) (n : nat) : MS ptr :=
  match psz with
  | None => ret None
  | Some psz =>
    let* len := strlen psz in
    if decide (len < n) then ret None
    else construct_with (malloc (n + 1)) (fun p => strcpy_n p 0 psz 0 n ;;; set_char p n 0)
  end.

(** strings.c:805-831 *)
Definition STRING_compare (s1 s2 : ptr) : MS Z :=
  match s1, s2 with
  | None, None => ret 0%Z
  | None, _ => ret 1%Z
  | _, None => ret (-1)%Z
  | Some h1, Some h2 =>
    let* o1 := get_obj h1 in let* o2 := get_obj h2 in
    let* c1 := own (s_ o1) in let* c2 := own (s_ o2) in strcmp c1 c2
  end.

(** strings.c:833-871; [source] is an array of the caller. *)
Definition STRING_from_byte_array (source : option bytes) (size : nat) : MS ptr :=
  match source with
  | None => if decide (0 < size) then ret None
            else construct_with (malloc_flex 1 size 1) (fun p => set_char p size 0)   (* memcpy of 0 bytes *)
  | Some source => construct_with (malloc_flex 1 size 1) (fun p => memcpy_from p 0 source size ;;; set_char p size 0)
  end.

(** strings.c:893-899: the loop of STRING_replace *)
Fixpoint replace_loop (p : ptr) (index todo : nat) (target replace : Z) : MS unit :=
  match todo with
  | O => ret tt
  | S todo =>
    let* s := own p in
    let* c := char_at s index in
    (if decide (c = target) then set_char p index replace else ret tt) ;;;
    replace_loop p (S index) todo target replace
  end.
(** strings.c:873-904 *)
Definition STRING_replace (handle : ptr) (target replace : Z) : MS Z :=
  match handle with
  | None => ret 1%Z
  | Some h =>
    if decide (target = replace) then ret 0%Z
    else
      let* o := get_obj h in
      let* s := own (s_ o) in
      let* len := strlen s in
      replace_loop (s_ o) 0 len target replace ;;; ret 0%Z
  end.
