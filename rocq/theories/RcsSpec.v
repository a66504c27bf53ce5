(** What RC_STRING, RC_PTR, RC_STRING_ARRAY, tuple arrays, rc_string_utils and external_command_helper promise: what each call needs the caller to hold, what it answers, and what the caller holds then. *)
From Verif Require Import Common Block CMem Prog RcsModel.
Local Open Scope Z_scope.

(** What a reference is to: an RC_STRING with this string, an RC_PTR with this pointer. *)
Inductive what := TheString (s : bytes) | ThePointer (p : positive).
#[export] Instance what_eq_dec : EqDecision what.
Proof. solve_decision. Defined.
Notation ref := (option (positive * what)).
Notation sref := (option (positive * bytes)).
(** Things a thread holds: a reference; a heap block of its own with these bytes; an RC_STRING_ARRAY with these strings (each NULL, or a reference that goes with the array);
    an array of tuples of so many fields, with these handles, one tuple after the other. *)
Inductive held := Ref (h : positive) (w : what) | Mem (p : positive) (l : bytes) | Arr (a : positive) (strings : list sref) | Tup (t : positive) (fields : nat) (count : Z) (handles : list ref).
Definition hold_ref (r : ref) : list held := match r with None => [] | Some (h, w) => [Ref h w] end.
Definition hold_str (r : sref) : list held := match r with None => [] | Some (h, s) => [Ref h (TheString s)] end.
Definition hold_mem (r : sref) : list held := match r with None => [] | Some (p, l) => [Mem p l] end.
Definition hold_arr (r : option (positive * list sref)) : list held := match r with None => [] | Some (a, l) => [Arr a l] end.
Definition hold_tup (r : option (positive * nat * Z * list ref)) : list held := match r with None => [] | Some (t, k, n, l) => [Tup t k n l] end.

Inductive op :=
(* the caller's own memory *)
| Malloc (l : bytes) | Free (p : positive) (l : bytes)
(* rc_string.h *)
| Create (s : option bytes)
| CreateFormat (format : bool) (text : option bytes) (again : bool)
| CreateMove (memory : sref)
| CreateCustom (context : positive) (l : bytes) (at_ : option nat) (free_func : bool)      (* the string is NULL, or at context + at_ *)
| Recreate (h : sref)
| ReadString (h : positive) (s : bytes)                                                   (* the caller looks at h->string *)
(* references to either *)
| Assign (h : positive) (w : what) | Release (h : positive) (w : what)
(* rc_ptr.h *)
| CreatePtr (memory : sref) (free_func : bool) (context : positive) (l : bytes)
| ReadPtr (h : positive) (p : positive)                                                   (* the caller looks at h->ptr *)
(* rc_string_array.h *)
| ArrayCreate (count : Z)
| ArrayDestroy (a : option (positive * list sref))
| ArrayRead (a : positive) (l : list sref)                                                (* the caller looks at all of the array *)
| ArrayPut (a : positive) (l : list sref) (i : nat) (h : positive) (s : bytes)            (* THANDLE_MOVE of a reference of the caller to string_array[i] *)
(* rc_string_utils.h *)
| Split (h : sref) (delimiter : Z)
(* thandle_tuple_array.h *)
| TupleCreate (fields : nat) (count : Z)
| TupleDestroy (t : option (positive * nat * Z * list ref)) (fields : nat)
| TuplePut (t : positive) (fields : nat) (count : Z) (l : list ref) (i : nat) (h : positive) (w : what)
| TupleRead (t : positive) (fields : nat) (count : Z) (l : list ref)                      (* the caller looks at all of the handles *)
(* external_command_helper.h *)
| Execute (command : option bytes) (lines return_code popen : bool) (text : bytes) (read_error : bool) (pclose : Z * Z).

(** Arrays come with all their strings: the caller has looked at them. *)
Inductive res := RUnit | RHandle (h : ptr) | RString (s : bytes) | RPointer (p : positive) | RArray (a : option (positive * list sref)) | RHandles (count : Z) (l : list ptr)
| RExecute (r : EXTERNAL_COMMAND_RESULT) (lines : option (positive * list sref)) (return_code : option Z) (closed : bool).

Section run.
Local Open Scope prog_scope.
Definition handle {A} (r : option (positive * A)) : ptr := fst <$> r.
(** The caller looks at the strings from string_array[i] on. *)
Fixpoint look_strings (p : positive) (i n : nat) : code (list sref) :=
  match n with
  | O => Ret []
  | S n' => let* x := act (cell p i) in
            let* y := match x with None => Ret None | Some h => let* s := act (string_of h) in Ret (Some (h, s)) end in
            let* l := look_strings p (S i) n' in
            Ret (y :: l)
  end.
Definition look (a : positive) : code (list sref) :=
  let* x := act (arr_fields a) in
  match x with (Some p, n) => look_strings p 0 (Z.to_nat n) | (None, _) => Ret [] end.
Definition look_at (a : ptr) : code (option (positive * list sref)) :=
  match a with None => Ret None | Some a => let* l := look a in Ret (Some (a, l)) end.
Fixpoint look_handles (p : positive) (i n : nat) : code (list ptr) :=
  match n with
  | O => Ret []
  | S n' => let* x := act (cell p i) in let* l := look_handles p (S i) n' in Ret (x :: l)
  end.
Definition run (o : op) : code res :=
  match o with
  | Malloc l => let* p := act (malloc (length l)) in
                match p with None => Ret (RHandle None) | Some q => act (store (Some q) 0 (bytes_block l)) ;;; Ret (RHandle (Some q)) end
  | Free p l => act (free (Some p)) ;;; Ret RUnit
  | Create s => let* r := rc_string_create s in Ret (RHandle r)
  | CreateFormat format text again => let* r := rc_string_create_with_vformat format text again in Ret (RHandle r)
  | CreateMove m => let* r := rc_string_create_with_move_memory (handle m) in Ret (RHandle r)
  | CreateCustom context l at_ func => let* r := rc_string_create_with_custom_free (match at_ with None => None | Some off => Some (context, off) end) func context in Ret (RHandle r)
  | Recreate h => let* r := rc_string_recreate (handle h) in Ret (RHandle r)
  | ReadString h _ => let* l := act (string_of h) in Ret (RString l)
  | Assign h _ => inc_ref h ;;; Ret RUnit
  | Release h _ => dec_ref h ;;; Ret RUnit
  | CreatePtr m func context _ => let* r := rc_ptr_create_with_move_pointer (handle m) func context in Ret (RHandle r)
  | ReadPtr h _ => let* o := act (get_obj h) in match o with OPtr p _ _ _ => Ret (RPointer p) | _ => act undef end
  | ArrayCreate n => let* a := rc_string_array_create n in let* r := look_at a in Ret (RArray r)
  | ArrayDestroy a => rc_string_array_destroy (handle a) ;;; Ret RUnit
  | ArrayRead a _ => let* r := look_at (Some a) in Ret (RArray r)
  | ArrayPut a _ i h _ => let* p := act (arr_cells a) in move_to_cell p i (Some h) ;;; Ret RUnit
  | Split h d => let* a := rc_string_utils_split_by_char (handle h) d in let* r := look_at a in Ret (RArray r)
  | TupleCreate k n => let* r := tuple_array_create k n in Ret (RHandle r)
  | TupleDestroy t k => tuple_array_destroy k (match t with None => None | Some (t, _, _, _) => Some t end) ;;; Ret RUnit
  | TuplePut t _ _ _ i h _ => move_to_cell t i (Some h) ;;; Ret RUnit
  | TupleRead t _ _ l => let* n := act (bind (get_obj t) (fun o => match o with OTup n _ => ret n | _ => undef end)) in let* x := look_handles t 0 (length l) in Ret (RHandles n x)
  | Execute command lines return_code popen text read_error pclose =>
      let* x := external_command_helper_execute command lines return_code popen text read_error pclose in
      let '(r, a, code, closed) := x in
      let* l := look_at a in Ret (RExecute r l code closed)
  end.
End run.

(** The string that begins a memory: the bytes before the first zero. *)
Fixpoint string_in (l : bytes) : bytes := match l with c :: l' => if decide (c = 0) then [] else c :: string_in l' | [] => [] end.
Definition no_zero (s : bytes) : Prop := 0 ∉ s.
Definition occurrences (d : Z) (s : bytes) : nat := length (filter (fun c => c = d) s).

(** What C's types and pointers demand of the arguments; a string to split has fewer than 2^32 - 1 delimiters; the output of a command has fewer than 2^32 lines. *)
Definition allowed (o : op) : Prop :=
  match o with
  | Create (Some s) => no_zero s
  | CreateFormat _ (Some s) _ => no_zero s
  | CreateMove (Some (_, l)) => 0 ∈ l
  | CreateCustom _ l (Some off) _ => 0 ∈ drop off l
  | ArrayCreate n => is_u32 n
  | ArrayPut _ l i _ _ => (i < length l)%nat
  | Split (Some (_, s)) d => Z.of_nat (occurrences d s) < UINT32_MAX
  | TupleCreate k n => is_u32 n
  | TupleDestroy (Some (_, k, _, _)) fields => fields = k
  | TuplePut _ _ _ l i _ _ => (i < length l)%nat
  | Execute _ _ _ _ text _ _ => Z.of_nat (length text) <= UINT32_MAX
  | _ => True
  end.

Definition uses (o : op) : list held :=
  match o with
  | Free p l => [Mem p l]
  | CreateMove m => hold_mem m
  | CreateCustom context l _ _ => [Mem context l]
  | Recreate h | Split h _ => hold_str h
  | ReadString h s => [Ref h (TheString s)]
  | Assign h w | Release h w => [Ref h w]
  | CreatePtr m _ context l => hold_mem m ++ [Mem context l]
  | ReadPtr h p => [Ref h (ThePointer p)]
  | ArrayDestroy a => hold_arr a
  | ArrayRead a l => [Arr a l]
  | ArrayPut a l i h s => [Arr a l; Ref h (TheString s)]
  | TupleDestroy t _ => hold_tup t
  | TuplePut t k n l i h w => [Tup t k n l; Ref h w]
  | TupleRead t k n l => [Tup t k n l]
  | _ => []
  end.
Definition new_ref (r : ptr) (w : what) (otherwise : list held) : list held := match r with Some h => [Ref h w] | None => otherwise end.
Definition gives (o : op) (r : res) : list held :=
  match o, r with
  | Malloc l, RHandle (Some p) => [Mem p l]
  | Create (Some s), RHandle r => new_ref r (TheString s) []
  | CreateFormat _ (Some s) _, RHandle r => new_ref r (TheString s) []
  | CreateMove (Some (p, l)), RHandle r => new_ref r (TheString (string_in l)) [Mem p l]
  | CreateCustom context l (Some off) _, RHandle r => new_ref r (TheString (string_in (drop off l))) [Mem context l]
  | CreateCustom context l None _, _ => [Mem context l]
  | Recreate (Some (h, s)), RHandle r => Ref h (TheString s) :: new_ref r (TheString s) []
  | ReadString h s, _ => [Ref h (TheString s)]
  | Assign h w, _ => [Ref h w; Ref h w]
  | CreatePtr m func context l, RHandle r =>
      match r, m with
      | Some h, Some (p, _) => Ref h (ThePointer p) :: if func then [] else hold_mem m ++ [Mem context l]
      | _, _ => hold_mem m ++ [Mem context l]
      end
  | ReadPtr h p, _ => [Ref h (ThePointer p)]
  | ArrayCreate _, RArray a => hold_arr a
  | ArrayRead a l, _ => [Arr a l]
  | ArrayPut a l i h s, _ => [Arr a (<[i := Some (h, s)]> l)]
  | Split h _, RArray a => hold_str h ++ hold_arr a
  | TupleCreate k n, RHandle (Some t) => [Tup t k n (replicate (Z.to_nat n * k) None)]
  | TuplePut t k n l i h w, _ => [Tup t k n (<[i := Some (h, w)]> l)]
  | TupleRead t k n l, _ => [Tup t k n l]
  | Execute _ _ _ _ _ _ _, RExecute _ a _ _ => hold_arr a
  | _, _ => []
  end.

(** The parts of s between the delimiters d. *)
Definition parts_of (d : Z) (s : bytes) (parts : list bytes) : Prop :=
  exists first_ others, parts = first_ :: others /\ s = first_ ++ concat ((fun part => d :: part) <$> others) /\ Forall (fun part => d ∉ part) parts.
(** Parts with the delimiter between them. *)
Definition join (d : Z) (parts : list bytes) : bytes := match parts with [] => [] | first_ :: others => first_ ++ concat ((fun part => d :: part) <$> others) end.
(** The buffers in which fgets delivers an output, in turn: each up to and with a newline, and of at most n characters; only the last may be of fewer and have no newline. *)
Inductive delivered (n : nat) : bytes -> list bytes -> Prop :=
| delivered_nil : delivered n [] []
| delivered_line l text bufs : 10 ∉ l -> (length l < n)%nat -> delivered n text bufs -> delivered n (l ++ 10 :: text) ((l ++ [10]) :: bufs)
| delivered_full l text bufs : 10 ∉ l -> length l = n -> delivered n text bufs -> delivered n (l ++ text) (l :: bufs)
| delivered_last l : 10 ∉ l -> (0 < length l < n)%nat -> delivered n l [l].
(** A buffer is taken as a line when it has a carriage return or newline, and no zero byte before that: the line is what is before. *)
Definition line_in (buf line : bytes) : Prop := exists c rest, buf = line ++ c :: rest /\ (c = 13 \/ c = 10) /\ 0 ∉ line /\ 13 ∉ line /\ 10 ∉ line.
(** A new struct: NULL only when an allocation failed during the call, or the string is too long for a size_t. *)
Definition made (r : ptr) (f f' : nat) : Prop := r = None -> (f < f')%nat.
Definition fits (s : bytes) : Prop := Z.of_nat (length s) + 1 <= UINT64_MAX - 24.
(** What a call may answer: f and f' are how many allocations had failed at its beginning and at its end. *)
Definition answers (o : op) (r : res) (f f' : nat) : Prop :=
  match o, r with
  | Malloc _, RHandle r => made r f f'
  | Free _ _, RUnit | Assign _ _, RUnit | Release _ _, RUnit | ArrayDestroy _, RUnit | ArrayPut _ _ _ _ _, RUnit | TupleDestroy _ _, RUnit | TuplePut _ _ _ _ _ _ _, RUnit => True
  | Create s, RHandle r => match s with None => r = None | Some s => if decide (fits s) then made r f f' else r = None end
  | CreateFormat format text again, RHandle r =>
      match format, text with
      | true, Some s => if decide (Z.of_nat (length s) = 2147483647) then r = None else if again then made r f f' else r = None
      | _, _ => r = None
      end
  | CreateMove m, RHandle r => match m with None => r = None | Some _ => made r f f' end
  | CreateCustom _ _ at_ func, RHandle r => if decide (at_ = None \/ func = false) then r = None else made r f f'
  | Recreate h, RHandle r => match h with None => r = None | Some (_, s) => if decide (fits s) then made r f f' else r = None end
  | ReadString _ s, RString l => l = s
  | CreatePtr m _ _ _, RHandle r => match m with None => r = None | Some _ => made r f f' end
  | ReadPtr _ p, RPointer q => q = p
  | ArrayCreate n, RArray r => match r with None => (f < f')%nat | Some (_, l) => l = replicate (Z.to_nat n) None end
  | ArrayRead a l, RArray r => r = Some (a, l)
  | Split h d, RArray r =>
      match h, r with
      | None, r => r = None
      | Some _, None => (f < f')%nat
      | Some (h, s), Some (_, l) => exists parts, parts_of d s parts /\ map (option_map snd) l = map Some parts /\ (length parts = 1%nat -> l = [Some (h, s)])
      end
  | TupleCreate _ _, RHandle r => made r f f'
  | TupleRead _ _ n l, RHandles n' x => n' = n /\ x = map (option_map fst) l
  | Execute command lines return_code popen text read_error pclose, RExecute r a code closed =>
      match command, lines, return_code with
      | Some (_ :: _), true, true =>
          exists bufs, delivered 2047 text bufs /\
          (closed = false -> popen = true /\ read_error = true /\ r = EXTERNAL_COMMAND_ERROR /\ exists lines, Forall2 line_in bufs lines) /\
          (popen = true -> read_error = true -> (exists lines, Forall2 line_in bufs lines) -> closed = false \/ (f < f')%nat) /\
          match r with
          | EXTERNAL_COMMAND_OK =>
              popen = true /\ read_error = false /\ pclose.1 = 0 /\ code = Some pclose.2 /\ exists arr l lines, a = Some (arr, l) /\ Forall2 line_in bufs lines /\ map (option_map snd) l = map Some lines
          | EXTERNAL_COMMAND_ERROR =>
              a = None /\ code = None /\ (popen = false \/ read_error = true \/ pclose.1 <> 0 \/ (f < f')%nat \/ ~ exists lines, Forall2 line_in bufs lines)
          | EXTERNAL_COMMAND_INVALID_ARGS => False
          end
      | _, _, _ => r = EXTERNAL_COMMAND_INVALID_ARGS /\ a = None /\ code = None /\ closed = true
      end
  | _, _ => False
  end.

Definition lib : library cst op res held := Library run allowed uses gives.

(** The references that go with a thing that is held. *)
Definition refs_of (x : held) : list (positive * what) :=
  match x with
  | Ref h w => [(h, w)]
  | Mem _ _ => []
  | Arr _ l => omap (fun x => (fun '(h, s) => (h, TheString s)) <$> x) l
  | Tup _ _ _ l => omap id l
  end.
(** What a counted struct is. *)
Definition is_what (o : obj) (w : what) : Prop :=
  match o, w with OStr _ _ _, TheString _ => True | OPtr p _ _ _, ThePointer q => p = q | _, _ => False end.
(** The heap blocks that go with a counted struct. *)
Definition owns (o : obj) (p : positive) : Prop :=
  match o with
  | OStr a Moved _ => a = ABlock p 0
  | OStr _ (WithCustomFree c) _ => p = c
  | OPtr q true c _ => p = q \/ p = c
  | _ => False
  end.
(** The array of these handles. *)
Definition cells_with {A} (l : list (option (positive * A))) : list (option ptr) := map (fun x => Some (option_map fst x)) l.
(** The memory, when the threads hold hs and no call is in progress: what is held is there, with everything that goes with it; every struct is an array that is held, goes with one, or is counted and there is a reference
    to it; every heap block is held, or goes with a counted struct that is there; and there is nothing when nothing is held. *)
Definition accounted (hs : list held) (s : cst) : Prop :=
  (forall x h w, x ∈ hs -> (h, w) ∈ refs_of x -> exists o, objs s !! h = Some o /\ is_what o w /\ forall p, owns o p -> is_Some (mem s !! p)) /\
  (forall p l, Mem p l ∈ hs -> mem s !! p = Some (bytes_block l)) /\
  (forall a l, Arr a l ∈ hs -> exists p, objs s !! a = Some (OArr p (Z.of_nat (length l))) /\
     match p with Some p => objs s !! p = Some (OCells (cells_with l)) | None => l = [] end) /\
  (forall t k n l, Tup t k n l ∈ hs -> objs s !! t = Some (OTup n (cells_with l))) /\
  (forall h o, objs s !! h = Some o ->
     (exists x w, x ∈ hs /\ (h, w) ∈ refs_of x /\ is_what o w) \/ (exists l, Arr h l ∈ hs) \/ (exists k n l, Tup h k n l ∈ hs) \/
     (exists a l n, Arr a l ∈ hs /\ objs s !! a = Some (OArr (Some h) n))) /\
  (forall p b, mem s !! p = Some b -> (exists l, Mem p l ∈ hs) \/ (exists h o, objs s !! h = Some o /\ owns o p)) /\
  (hs = [] -> mem s = ∅ /\ objs s = ∅).
