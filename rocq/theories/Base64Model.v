(** Model of src/azure_base64.c.

    Characters and bytes are integers 0..255 (the code compares characters only with ASCII constants, so the
    signedness of char does not matter). A C string argument is the list of the bytes of the array that holds it,
    the terminating 0 included; reading past the end of that list is undefined behaviour.
    BUFFER_new, BUFFER_pre_build, STRING_new_with_memory and malloc_flex succeed or fail as the boolean arguments say.
    Sizes are natural numbers: the arrays exist in memory, so the size_t computations below do not wrap
    (malloc_flex checks its own multiplication and fails, which is one of its modelled outcomes). *)
From Verif Require Import Common Block.
Local Open Scope Z_scope.
Local Open Scope cmonad_scope.

(** azure_base64.c:14 splitInt *)
Definition splitInt (intVal bytePos : Z) : Z := Z.land (Z.shiftr intVal (Z.shiftl bytePos 3)) 255.
(** azure_base64.c:15 joinChars (uint32_t arithmetic) *)
Definition joinChars (a b c d : Z) : Z := u32 (a + u32 (Z.shiftl b 8) + u32 (Z.shiftl c 16) + u32 (Z.shiftl d 24)).

(** azure_base64.c:17-43 base64char ('A' = 65, 'a' = 97, '0' = 48, '+' = 43, '/' = 47) *)
Definition base64char (val : Z) : Z :=
  if val <? 26 then 65 + val
  else if val <? 52 then 97 + (val - 26)
  else if val <? 62 then 48 + (val - 52)
  else if val =? 62 then 43
  else 47.

(** azure_base64.c:45-54 base64b16 *)
Definition base64b16 (val : Z) : Z :=
  let base64b16values := [joinChars 65 69 73 77;      (* A E I M *)
                          joinChars 81 85 89 99;      (* Q U Y c *)
                          joinChars 103 107 111 115;  (* g k o s *)
                          joinChars 119 48 52 56] in  (* w 0 4 8 *)
  splitInt (nth (Z.to_nat (Z.shiftr val 2)) base64b16values 0) (Z.land val 3).

(** azure_base64.c:56-60 base64b8 *)
Definition base64b8 (val : Z) : Z :=
  splitInt (joinChars 65 81 103 119) val.             (* A Q g w *)

(** azure_base64.c:62-91 base64toValue: (returned 0, value) *)
Definition base64toValue (c : Z) : bool * Z :=
  if (65 <=? c) && (c <=? 90) then (true, c - 65)
  else if (97 <=? c) && (c <=? 122) then (true, (90 - 65) + 1 + (c - 97))
  else if (48 <=? c) && (c <=? 57) then (true, (90 - 65) + 1 + (122 - 97) + 1 + (c - 48))
  else if 43 =? c then (true, 62)
  else if 47 =? c then (true, 63)
  else (false, 0).

Section code.
  Context {S : Type}.

  (** strlen: counts up to the first 0; running off the array is undefined. *)
  Fixpoint strlen (s : bytes) : M S nat :=
    match s with
    | [] => undef
    | c :: s' => if c =? 0 then ret 0%nat else let* n := strlen s' in ret (1 + n)%nat
    end.

  (** azure_base64.c:93-102 numberOfBase64Characters *)
  Fixpoint numberOfBase64Characters_loop (fuel : nat) (encodedString : bytes) (length : nat) : M S nat :=
    match fuel with
    | O => nofuel
    | Datatypes.S fuel =>
      let* c := at_ encodedString length in
      if (base64toValue c).1 then numberOfBase64Characters_loop fuel encodedString (length + 1) else ret length
    end.
  Definition numberOfBase64Characters (encodedString : bytes) : M S nat :=
    numberOfBase64Characters_loop (1 + length encodedString) encodedString 0.

  (** azure_base64.c:104-128 Base64decode_len ('=' = 61) *)
  Definition Base64decode_len (encodedString : bytes) : M S nat :=
    let* sourceLength := strlen encodedString in
    if (sourceLength =? 0)%nat then ret 0%nat
    else
      let result := (sourceLength / 4 * 3)%nat in
      let* last1 := at_ encodedString (sourceLength - 1) in
      if last1 =? 61 then
        let* last2 := at_ encodedString (sourceLength - 2) in
        let result := (if (last2 =? 61)%Z then (result - 1)%nat else result) in
        ret (result - 1)%nat
      else ret result.
End code.

(** azure_base64.c:146-165 the 4-character groups of Base64decode; returns the three loop variables. *)
Fixpoint decode_groups (fuel : nat) (base64String : bytes)
    (numberOfEncodedChars indexOfFirstEncodedChar decodedIndex : nat) : M block (nat * nat * nat) :=
  match fuel with
  | O => nofuel
  | S fuel =>
    if (4 <=? numberOfEncodedChars)%nat then
      let* x1 := at_ base64String indexOfFirstEncodedChar in
      let* x2 := at_ base64String (indexOfFirstEncodedChar + 1) in
      let* x3 := at_ base64String (indexOfFirstEncodedChar + 2) in
      let* x4 := at_ base64String (indexOfFirstEncodedChar + 3) in
      let c1 := (base64toValue x1).2 in
      let c2 := (base64toValue x2).2 in
      let c3 := (base64toValue x3).2 in
      let c4 := (base64toValue x4).2 in
      wr decodedIndex (Z.lor (Z.shiftl c1 2) (Z.shiftr c2 4)) ;;;
      wr (decodedIndex + 1) (Z.lor (Z.shiftl (Z.land c2 15) 4) (Z.shiftr c3 2)) ;;;
      wr (decodedIndex + 2) (Z.lor (Z.shiftl (Z.land c3 3) 6) c4) ;;;
      decode_groups fuel base64String (numberOfEncodedChars - 4) (indexOfFirstEncodedChar + 4) (decodedIndex + 3)
    else ret (numberOfEncodedChars, indexOfFirstEncodedChar, decodedIndex)
  end.

(** azure_base64.c:130-187 Base64decode. (The casts of the int expressions to unsigned char are the identity for
    6-bit values.) *)
Definition Base64decode (base64String : bytes) : M block unit :=
  let* n := numberOfBase64Characters base64String in
  let* (n, i, d) := decode_groups (1 + n) base64String n 0 0 in
  if (n =? 2)%nat then
    let* x1 := at_ base64String i in
    let* x2 := at_ base64String (i + 1) in
    let c1 := (base64toValue x1).2 in
    let c2 := (base64toValue x2).2 in
    wr d (Z.lor (Z.shiftl c1 2) (Z.shiftr c2 4))
  else if (n =? 3)%nat then
    let* x1 := at_ base64String i in
    let* x2 := at_ base64String (i + 1) in
    let* x3 := at_ base64String (i + 2) in
    let c1 := (base64toValue x1).2 in
    let c2 := (base64toValue x2).2 in
    let c3 := (base64toValue x3).2 in
    wr d (Z.lor (Z.shiftl c1 2) (Z.shiftr c2 4)) ;;;
    wr (d + 1) (Z.lor (Z.shiftl (Z.land c2 15) 4) (Z.shiftr c3 2))
  else ret tt.

(** azure_base64.c:189-235 Azure_Base64_Decode. The result is NULL or the contents of the returned BUFFER.
    [new_ok], [build_ok]: BUFFER_new and BUFFER_pre_build succeed. *)
Definition Azure_Base64_Decode (new_ok build_ok : bool) (source : option bytes) : outcome (option block) :=
  match source with
  | None => Done None
  | Some source =>
    match strlen source tt with
    | Done (len, _) =>
      if negb (len mod 4 =? 0)%nat then Done None
      else if negb new_ok then Done None
      else
        match Base64decode_len source tt with
        | Done (sizeOfOutputBuffer, _) =>
          if (0 <? sizeOfOutputBuffer)%nat then
            if negb build_ok then Done None
            else
              match Base64decode source (fresh_block sizeOfOutputBuffer) with
              | Done (_, b) => Done (Some b)
              | Undef => Undef
              | NoFuel => NoFuel
              end
          else Done (Some [])
        | Undef => Undef
        | NoFuel => NoFuel
        end
    | Undef => Undef
    | NoFuel => NoFuel
    end
  end.

(** azure_base64.c:259-279 the 3-byte groups of Base64_Encode_Internal; returns (currentPosition, destinationPosition). *)
Fixpoint encode_groups (fuel : nat) (source : bytes) (size currentPosition destinationPosition : nat) : M block (nat * nat) :=
  match fuel with
  | O => nofuel
  | S fuel =>
    if (3 <=? size - currentPosition)%nat then
      let* s0 := at_ source currentPosition in
      let* s1 := at_ source (currentPosition + 1) in
      let* s2 := at_ source (currentPosition + 2) in
      let c1 := base64char (Z.shiftr s0 2) in
      let c2 := base64char (Z.lor (Z.shiftl (Z.land s0 3) 4) (Z.shiftr s1 4)) in
      let c3 := base64char (Z.lor (Z.shiftl (Z.land s1 15) 2) (Z.land (Z.shiftr s2 6) 3)) in
      let c4 := base64char (Z.land s2 63) in
      wr destinationPosition c1 ;;;
      wr (destinationPosition + 1) c2 ;;;
      wr (destinationPosition + 2) c3 ;;;
      wr (destinationPosition + 3) c4 ;;;
      encode_groups fuel source size (currentPosition + 3) (destinationPosition + 4)
    else ret (currentPosition, destinationPosition)
  end.

(** azure_base64.c:258-304 body of Base64_Encode_Internal after the allocation. *)
Definition encode_body (source : bytes) (size : nat) : M block unit :=
  let* (cur, dst) := encode_groups (1 + size) source size 0 0 in
  let* dst :=
    (if (size - cur =? 2)%nat then
      let* s0 := at_ source cur in
      let* s1 := at_ source (cur + 1) in
      let c1 := base64char (Z.shiftr s0 2) in
      let c2 := base64char (Z.lor (Z.shiftl (Z.land s0 3) 4) (Z.shiftr s1 4)) in
      let c3 := base64b16 (Z.land s1 15) in
      wr dst c1 ;;; wr (dst + 1) c2 ;;; wr (dst + 2) c3 ;;; wr (dst + 3) 61 ;;; ret (dst + 4)%nat
    else if (size - cur =? 1)%nat then
      let* s0 := at_ source cur in
      let c1 := base64char (Z.shiftr s0 2) in
      let c2 := base64b8 (Z.land s0 3) in
      wr dst c1 ;;; wr (dst + 1) c2 ;;; wr (dst + 2) 61 ;;; wr (dst + 3) 61 ;;; ret (dst + 4)%nat
    else ret dst) in
  wr dst 0.

(** azure_base64.c:238-314 Base64_Encode_Internal. The result is NULL or the memory of the returned STRING.
    [malloc_ok], [new_ok]: malloc_flex and STRING_new_with_memory succeed. *)
Definition Base64_Encode_Internal (malloc_ok new_ok : bool) (source : bytes) (size : nat) : outcome (option block) :=
  if negb malloc_ok then Done None
  else
    let nmemb := (if (size =? 0)%nat then 0 else ((size - 1) / 3) + 1)%nat in
    match encode_body source size (fresh_block (1 + nmemb * 4)) with
    | Done (_, b) => if new_ok then Done (Some b) else Done None
    | Undef => Undef
    | NoFuel => NoFuel
    end.

(** azure_base64.c:316-335 Azure_Base64_Encode_Bytes. STRING_new yields an empty string: one terminating 0. *)
Definition Azure_Base64_Encode_Bytes (malloc_ok new_ok : bool) (source : option bytes) (size : nat) : outcome (option block) :=
  match source with
  | None => Done None
  | Some source =>
    if (size =? 0)%nat then (if new_ok then Done (Some [Some 0]) else Done None)
    else Base64_Encode_Internal malloc_ok new_ok source size
  end.

(** azure_base64.c:337-369 Azure_Base64_Encode: the input BUFFER's contents, whole. *)
Definition Azure_Base64_Encode (malloc_ok new_ok : bool) (input : option bytes) : outcome (option block) :=
  match input with
  | None => Done None
  | Some l => Base64_Encode_Internal malloc_ok new_ok l (length l)
  end.
