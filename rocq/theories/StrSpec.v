(** What a STRING is to its user: a sequence of non-zero characters. The calls, and their effect. *)
From Verif Require Import Common Block CMem CStr StrModel.
Local Open Scope cmonad_scope.

Notation strings := (gmap positive (list Z)).

(** A const char* argument: NULL, a string of the caller's, or STRING_c_str of a live STRING. *)
Inductive text := TNull | TExt (l : bytes) | TOf (h : positive).

Inductive op :=
| New | Clone (h : ptr) | Construct (t : text) | ConstructSprintf (f : option fmt) | NewWithMemory (l : bytes) | NewQuoted (t : text)
| NewJSON (t : text) | Concat (h : ptr) (t : text) | ConcatString (h1 h2 : ptr) | Copy (h : ptr) (t : text) | CopyN (h : ptr) (t : text) (n : nat)
| Sprintf (h : ptr) (f : option fmt) | Quote (h : ptr) | Empty (h : ptr) | Delete (h : ptr) | CStr (h : ptr) | Length (h : ptr)
| ConstructN (t : text) (n : nat) | Compare (h1 h2 : ptr) | FromByteArray (source : option bytes) (n : nat) | Replace (h : ptr) (target replace : Z).

(** What the caller sees: a handle, an int, nothing, the characters behind a returned pointer (None for NULL), a length. *)
Inductive res := RHandle (h : ptr) | RInt (z : Z) | RUnit | RChars (l : option block) | RSize (n : nat).

Definition eval (t : text) : MS (option csrc) :=
  match t with
  | TNull => ret None
  | TExt l => ret (Some (CExt (l ++ [0%Z])))
  | TOf h => let* p := STRING_c_str (Some h) in ret (CPtr <$> p)
  end.

Definition run (o : op) : MS res :=
  match o with
  | New => let* r := STRING_new in ret (RHandle r)
  | Clone h => let* r := STRING_clone h in ret (RHandle r)
  | Construct t => let* c := eval t in let* r := STRING_construct c in ret (RHandle r)
  | ConstructSprintf f => let* r := STRING_construct_sprintf f in ret (RHandle r)
  | NewWithMemory l =>   (* the caller mallocs a block holding l, hands it over, and frees it if it is not taken *)
      let* p := malloc (length l + 1) in
      match p with
      | None => ret (RHandle None)
      | Some _ =>
        store p 0 (bytes_block (l ++ [0%Z])) ;;;
        let* r := STRING_new_with_memory p in
        match r with None => free p ;;; ret (RHandle None) | Some _ => ret (RHandle r) end
      end
  | NewQuoted t => let* c := eval t in let* r := STRING_new_quoted c in ret (RHandle r)
  | NewJSON t => let* c := eval t in let* r := STRING_new_JSON c in ret (RHandle r)
  | Concat h t => let* c := eval t in let* r := STRING_concat h c in ret (RInt r)
  | ConcatString h1 h2 => let* r := STRING_concat_with_STRING h1 h2 in ret (RInt r)
  | Copy h t => let* c := eval t in let* r := STRING_copy h c in ret (RInt r)
  | CopyN h t n => let* c := eval t in let* r := STRING_copy_n h c n in ret (RInt r)
  | Sprintf h f => let* r := STRING_sprintf h f in ret (RInt r)
  | Quote h => let* r := STRING_quote h in ret (RInt r)
  | Empty h => let* r := STRING_empty h in ret (RInt r)
  | Delete h => STRING_delete h ;;; ret RUnit
  | CStr h =>   (* the characters up to and including the terminator *)
      let* p := STRING_c_str h in
      match p with
      | None => ret (RChars None)
      | Some l => let* n := strlen (CPtr l) in let* b := load p 0 (n + 1) in ret (RChars (Some b))
      end
  | Length h => let* r := STRING_length h in ret (RSize r)
  | ConstructN t n => let* c := eval t in let* r := STRING_construct_n c n in ret (RHandle r)
  | Compare h1 h2 => let* r := STRING_compare h1 h2 in ret (RInt r)
  | FromByteArray s n => let* r := STRING_from_byte_array s n in ret (RHandle r)
  | Replace h x y => let* r := STRING_replace h x y in ret (RInt r)
  end.

(** The text of a string argument. *)
Definition denotes (a : strings) (t : text) : option (list Z) :=
  match t with TNull => None | TExt l => Some l | TOf h => a !! h end.
(** The characters before the first 0. *)
Fixpoint until0 (l : list Z) : list Z :=
  match l with [] => [] | c :: l => if decide (c = 0%Z) then [] else c :: until0 l end.
(** A string of n characters, with its terminator, needs n + 1 bytes. *)
Definition fits (n : nat) : Prop := (Z.of_nat n + 1 <= UINT64_MAX)%Z.
#[export] Instance fits_dec n : Decision (fits n) := _.
(** l1 comes before l2 in the dictionary. *)
Fixpoint before (l1 l2 : list Z) : Prop :=
  match l1, l2 with
  | _, [] => False
  | [], _ => True
  | c1 :: l1, c2 :: l2 => (c1 < c2)%Z \/ (c1 = c2 /\ before l1 l2)
  end.

(** JSON (RFC 8259, section 7): how STRING_new_JSON writes a character below 128: control characters as \u00XX with upper case digits, and
    quotation mark, reverse solidus and solidus after a reverse solidus. *)
Definition HEX : list Z := [48; 49; 50; 51; 52; 53; 54; 55; 56; 57; 65; 66; 67; 68; 69; 70]%Z.
Definition json_char (c : Z) : list Z :=
  if decide (c < 32)%Z then [92; 117; 48; 48; nth (Z.to_nat (c / 16)) HEX 0; nth (Z.to_nat (c mod 16)) HEX 0]%Z
  else if decide (c ∈ [34; 92; 47]%Z) then [92%Z; c]
  else [c].
Definition json (l : list Z) : list Z := [34%Z] ++ concat (json_char <$> l) ++ [34%Z].
(** Reading JSON: the text a JSON string denotes, if it is one (for characters of one byte). *)
Definition hex_digit (c : Z) : option Z :=
  if decide (48 <= c <= 57)%Z then Some (c - 48)%Z
  else if decide (65 <= c <= 70)%Z then Some (c - 55)%Z
  else if decide (97 <= c <= 102)%Z then Some (c - 87)%Z else None.
Definition escape (c : Z) : option Z :=   (* section 7: the two-character escapes *)
  if decide (c ∈ [34; 92; 47]%Z) then Some c
  else if decide (c = 98%Z) then Some 8%Z else if decide (c = 102%Z) then Some 12%Z else if decide (c = 110%Z) then Some 10%Z
  else if decide (c = 114%Z) then Some 13%Z else if decide (c = 116%Z) then Some 9%Z else None.
Fixpoint json_body (l : list Z) : option (list Z) :=   (* after the opening quotation mark *)
  match l with
  | [] => None
  | c :: l' =>
    if decide (c = 34%Z) then (match l' with [] => Some [] | _ => None end)   (* the closing quotation mark must come last *)
    else if decide (c < 32)%Z then None                   (* control characters must be escaped *)
    else if decide (c = 92%Z) then
      match l' with
      | u :: l'' =>
        if decide (u = 117%Z) then
          match l'' with
          | a :: b :: x :: y :: l''' =>
            match hex_digit a, hex_digit b, hex_digit x, hex_digit y, json_body l''' with
            | Some 0%Z, Some 0%Z, Some x, Some y, Some r => Some ((16 * x + y)%Z :: r)
            | _, _, _, _, _ => None
            end
          | _ => None
          end
        else match escape u, json_body l'' with Some v, Some r => Some (v :: r) | _, _ => None end
      | [] => None
      end
    else (cons c) <$> json_body l'
  end.
Definition json_value (l : list Z) : option (list Z) :=
  match l with c :: l => if decide (c = 34%Z) then json_body l else None | [] => None end.

(** A new handle for this string; the string of h becomes l and 0 is returned; x is returned and nothing changes. *)
Definition creates (l : list Z) (a : strings) (r : res) (a' : strings) : Prop := exists h, a !! h = None /\ r = RHandle (Some h) /\ a' = <[h := l]> a.
Definition becomes (h : positive) (l : list Z) (a : strings) (r : res) (a' : strings) : Prop := r = RInt 0 /\ a' = <[h := l]> a.
Definition answers (x : res) (a : strings) (r : res) (a' : strings) : Prop := r = x /\ a' = a.

(** The effect of each call when no allocation fails. *)
Definition effect (o : op) (a : strings) (r : res) (a' : strings) : Prop :=
  let on (h : ptr) (failure : res) (k : positive -> list Z -> Prop) : Prop :=
    match h with
    | None => answers failure a r a'
    | Some h => exists l, a !! h = Some l /\ k h l
    end in
  let null := answers (RHandle None) a r a' in
  let failed := answers (RInt 1) a r a' in
  let new (l : list Z) := if decide (fits (length l)) then creates l a r a' else null in
  let set h (l : list Z) := if decide (fits (length l)) then becomes h l a r a' else failed in
  match o with
  | New => creates [] a r a'
  | Clone h => on h (RHandle None) (fun h l => creates l a r a')
  | Construct t => match denotes a t with None => null | Some l => new l end
  | ConstructSprintf None | ConstructSprintf (Some FmtError) => null
  | ConstructSprintf (Some (Fmt [] _)) => creates [] a r a'
  | ConstructSprintf (Some (Fmt _ (Some _))) => null
  | ConstructSprintf (Some (Fmt l None)) => creates l a r a'
  | NewWithMemory l => creates l a r a'
  | NewQuoted t => match denotes a t with None => null | Some l => new ([34%Z] ++ l ++ [34%Z]) end
  | NewJSON t =>
      match denotes a t with
      | None => null
      | Some l => if decide (Exists (fun c => 128 <= c)%Z l) then null else new (json l)
      end
  | Concat h t => on h (RInt 1) (fun h l => match denotes a t with None => failed | Some l2 => set h (l ++ l2) end)
  | ConcatString h1 h2 => on h1 (RInt 1) (fun h1 l1 => on h2 (RInt 1) (fun _ l2 => set h1 (l1 ++ l2)))
  | Copy h t => on h (RInt 1) (fun h l => match denotes a t with None => failed | Some l2 => becomes h l2 a r a' end)
  | CopyN h t n => on h (RInt 1) (fun h l => match denotes a t with None => failed | Some l2 => becomes h (take n l2) a r a' end)
  | Sprintf h None => on h (RInt 1) (fun _ _ => failed)
  | Sprintf h (Some FmtError) => on h (RInt 1) (fun _ _ => failed)
  | Sprintf h (Some (Fmt [] _)) => on h (RInt 1) (fun h l => becomes h l a r a')
  | Sprintf h (Some (Fmt _ (Some _))) => on h (RInt 1) (fun _ _ => failed)
  | Sprintf h (Some (Fmt l2 None)) => on h (RInt 1) (fun h l => set h (l ++ l2))
  | Quote h => on h (RInt 1) (fun h l => set h ([34%Z] ++ l ++ [34%Z]))
  | Empty h => on h (RInt 1) (fun h l => becomes h [] a r a')
  | Delete None => answers RUnit a r a'
  | Delete (Some h) => r = RUnit /\ a' = delete h a
  | CStr h => on h (RChars None) (fun h l => answers (RChars (Some (bytes_block (l ++ [0%Z])))) a r a')
  | Length h => on h (RSize 0) (fun h l => answers (RSize (length l)) a r a')
  | ConstructN t n => match denotes a t with None => null | Some l => if decide (length l < n) then null else creates (take n l) a r a' end
  | Compare None None => answers (RInt 0) a r a'
  | Compare None (Some _) => answers (RInt 1) a r a'
  | Compare (Some _) None => answers (RInt (-1)) a r a'
  | Compare (Some h1) (Some h2) => exists l1 l2 z, a !! h1 = Some l1 /\ a !! h2 = Some l2 /\ r = RInt z /\ a' = a /\
      (z = 0%Z <-> l1 = l2) /\ ((z < 0)%Z <-> before l1 l2) /\ ((0 < z)%Z <-> before l2 l1)
  | FromByteArray None 0 => creates [] a r a'
  | FromByteArray None _ => null
  | FromByteArray (Some l) n => if decide (fits n) then creates (until0 (take n l)) a r a' else null
  | Replace h x y => on h (RInt 1) (fun h l => becomes h (until0 ((fun c => if decide (c = x) then y else c) <$> l)) a r a')
  end.

(** What a call answers when it fails. *)
Definition failure (o : op) : option res :=
  match o with
  | New | Clone _ | Construct _ | ConstructSprintf _ | NewWithMemory _ | NewQuoted _ | NewJSON _ | ConstructN _ _ | FromByteArray _ _ => Some (RHandle None)
  | Concat _ _ | ConcatString _ _ | Copy _ _ | CopyN _ _ _ | Sprintf _ _ | Quote _ | Empty _ => Some (RInt 1)
  | _ => None
  end.

(** The calls a user may make. Handles are live or NULL; strings of the caller's are strings, in arrays whose size fits in size_t; a string is not appended
    to, nor partially copied over, itself. *)
Definition string_ok (l : list Z) : Prop := Forall (fun c => 0 < c <= 255)%Z l /\ fits (length l).
Definition live (a : strings) (h : ptr) : Prop := match h with None => True | Some h => is_Some (a !! h) end.
Definition text_ok (a : strings) (t : text) : Prop := match t with TNull => True | TExt l => string_ok l | TOf h => is_Some (a !! h) end.
Definition apart (h : ptr) (t : text) : Prop := match h, t with Some h, TOf h' => h <> h' | _, _ => True end.
Definition fmt_ok (f : option fmt) : Prop :=
  match f with Some (Fmt l _) => string_ok l | _ => True end.
Definition allowed (a : strings) (o : op) : Prop :=
  match o with
  | New => True
  | Clone h | Quote h | Empty h | Delete h | CStr h | Length h => live a h
  | Construct t | NewQuoted t | NewJSON t | ConstructN t _ => text_ok a t
  | ConstructSprintf f => fmt_ok f
  | NewWithMemory l => string_ok l
  | Concat h t | CopyN h t _ => live a h /\ text_ok a t /\ apart h t
  | Copy h t => live a h /\ text_ok a t
  | ConcatString h1 h2 => live a h1 /\ live a h2 /\ (h1 = None \/ h1 <> h2)
  | Sprintf h f => live a h /\ fmt_ok f
  | Compare h1 h2 => live a h1 /\ live a h2
  | FromByteArray (Some l) n => n <= length l /\ Forall (fun c => 0 <= c <= 255)%Z l /\ (Z.of_nat n <= UINT64_MAX)%Z
  | FromByteArray None n => True
  | Replace h x y => live a h /\ (0 <= x <= 255 /\ 0 <= y <= 255)%Z
  end.
