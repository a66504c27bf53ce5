(** Model of src/uuid_string.c. The input text is the array that holds it (reading past its end is undefined
    behaviour); the UUID_T the caller passes is a block of 16 bytes, possibly uninitialised. *)
From Verif Require Import Common Block.
Local Open Scope Z_scope.
Local Open Scope cmonad_scope.

(** uuid_string.h:16-21 *)
Inductive uuid_from_string_result := UUID_FROM_STRING_RESULT_OK | UUID_FROM_STRING_RESULT_INVALID_DATA | UUID_FROM_STRING_RESULT_INVALID_ARG.

(** uuid_string.c:19-48 isHexDigit: None is false, Some v is true with *value = v.
    ('0' = 48, '9' = 57, 'a' = 97, 'f' = 102, 'A' = 65, 'F' = 70) *)
Definition isHexDigit (c : Z) : option Z :=
  if (48 <=? c) && (c <=? 57) then Some (c - 48)
  else if (97 <=? c) && (c <=? 102) then Some (10 + c - 97)
  else if (65 <=? c) && (c <=? 70) then Some (10 + c - 65)
  else None.

(** uuid_string.c:50-73 isHexByte(s + p, uuid + d): writes the byte only when both digits are there. *)
Definition isHexByte (s : bytes) (p d : nat) : M block bool :=
  let* c0 := at_ s p in
  match isHexDigit c0 with
  | None => ret false
  | Some high =>
    let* c1 := at_ s (p + 1) in
    match isHexDigit c1 with
    | None => ret false
    | Some low => wr d ((Z.shiftl high 4 + low) mod 256) ;;; ret true
    end
  end.

(** uuid_string.c:75-89 parseHexString(s + p, numbers, uuid + d); structural in the number of bytes still to parse. *)
Fixpoint parseHexString (s : bytes) (p : nat) (numbers : nat) (d : nat) : M block bool :=
  match numbers with
  | O => ret true
  | S numbers =>
    let* ok := isHexByte s p d in
    if (ok : bool) then parseHexString s (p + 2) numbers (d + 1) else ret false
  end.

(** [e1 || e2] of the condition at uuid_string.c:118-128, negated: go on only while the parts match. *)
Definition and_then (a b : M block bool) : M block bool := let* r := a in if (r : bool) then b else ret false.
(** uuid_string[i] == '-' *)
Definition is_dash (s : bytes) (i : nat) : M block bool := let* c := at_ s i in ret (c =? 45).

(** uuid_string.c:91-141 uuid_from_string; [uuid_ok] is whether the uuid pointer is not NULL. *)
Definition uuid_from_string (uuid_string : option bytes) (uuid_ok : bool) : M block uuid_from_string_result :=
  match uuid_string with
  | None => ret UUID_FROM_STRING_RESULT_INVALID_ARG
  | Some s =>
    if negb uuid_ok then ret UUID_FROM_STRING_RESULT_INVALID_ARG
    else
      let* ok :=
        and_then (parseHexString s 0 4 0) (and_then (is_dash s 8)
        (and_then (parseHexString s 9 2 4) (and_then (is_dash s 13)
        (and_then (parseHexString s 14 2 6) (and_then (is_dash s 18)
        (and_then (parseHexString s 19 2 8) (and_then (is_dash s 23)
        (parseHexString s 24 6 10)))))))) in
      ret (if (ok : bool) then UUID_FROM_STRING_RESULT_OK else UUID_FROM_STRING_RESULT_INVALID_DATA)
  end.

(** %02x of a byte, as PRI_UUID_T of c_pal prints each byte (lower case). *)
Definition hexchar (v : Z) : Z := if v <? 10 then 48 + v else 87 + v.
Definition print_byte (b : Z) : list Z := [hexchar (b / 16); hexchar (b mod 16)].
(** uuid_string.c:143-158 uuid_to_string: sprintf_char of PRI_UUID_T over the 16 bytes. c_pal's macro is not in this repository: it is
    taken to print the bytes in order in the 8-4-4-4-12 layout uuid_from_string reads.
    [ok]: sprintf_char succeeds. The result is NULL or the bytes of the returned string, terminator included. *)
Definition uuid_to_string (ok : bool) (uuid : bytes) : option bytes :=
  if ok then
    Some (concat (print_byte <$> take 4 uuid) ++ [45] ++ concat (print_byte <$> take 2 (drop 4 uuid)) ++ [45] ++
          concat (print_byte <$> take 2 (drop 6 uuid)) ++ [45] ++ concat (print_byte <$> take 2 (drop 8 uuid)) ++ [45] ++
          concat (print_byte <$> take 6 (drop 10 uuid)) ++ [0])
  else None.
