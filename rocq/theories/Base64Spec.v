(** RFC 4648 section 4, on lists of bytes. *)
From Coq Require Import Ascii String.
From Verif Require Import Common.
Local Open Scope Z_scope.

Definition codes (s : string) : list Z := (fun c => Z.of_nat (nat_of_ascii c)) <$> list_ascii_of_string s.
(** Table 1: the base 64 alphabet. *)
Definition alphabet : list Z := codes "ABCDEFGHIJKLMNOPQRSTUVWXYZabcdefghijklmnopqrstuvwxyz0123456789+/".
Definition PAD : Z := 61.  (* '=' *)
Definition digit (v : Z) : Z := nth (Z.to_nat v) alphabet PAD.

(** 24-bit groups, each written as four 6-bit digits; a short final group is padded with zero bits and '='. *)
Fixpoint rfc4648 (l : bytes) : list Z :=
  match l with
  | a :: b :: c :: l' =>
    let n := a * 2 ^ 16 + b * 2 ^ 8 + c in
    digit (n / 2 ^ 18) :: digit (n / 2 ^ 12 mod 64) :: digit (n / 2 ^ 6 mod 64) :: digit (n mod 64) :: rfc4648 l'
  | [a; b] =>
    let n := a * 2 ^ 16 + b * 2 ^ 8 in
    [digit (n / 2 ^ 18); digit (n / 2 ^ 12 mod 64); digit (n / 2 ^ 6 mod 64); PAD]
  | [a] =>
    let n := a * 2 ^ 16 in
    [digit (n / 2 ^ 18); digit (n / 2 ^ 12 mod 64); PAD; PAD]
  | [] => []
  end.

(** The value of an alphabet character. *)
Fixpoint index_of (c : Z) (l : list Z) : option Z :=
  match l with
  | [] => None
  | x :: l' => if decide (x = c) then Some 0 else (fun n => 1 + n) <$> index_of c l'
  end.
Definition value_of (c : Z) : option Z := index_of c alphabet.

(** The longest prefix made of alphabet characters, as digit values. *)
Fixpoint leading_digits (s : list Z) : list Z :=
  match s with
  | [] => []
  | c :: s' => match value_of c with Some v => v :: leading_digits s' | None => [] end
  end.
(** The whole bytes that a sequence of 6-bit digits determines: 4 digits give 3 bytes, a final group of 3 gives 2, of 2 gives 1
    (a final single digit gives none). *)
Fixpoint digits_bytes (ds : list Z) : bytes :=
  match ds with
  | d1 :: d2 :: d3 :: d4 :: ds' =>
    let n := d1 * 2 ^ 18 + d2 * 2 ^ 12 + d3 * 2 ^ 6 + d4 in
    n / 2 ^ 16 :: n / 2 ^ 8 mod 256 :: n mod 256 :: digits_bytes ds'
  | [d1; d2; d3] =>
    let n := d1 * 2 ^ 18 + d2 * 2 ^ 12 + d3 * 2 ^ 6 in
    [n / 2 ^ 16; n / 2 ^ 8 mod 256]
  | [d1; d2] =>
    let n := d1 * 2 ^ 18 + d2 * 2 ^ 12 in
    [n / 2 ^ 16]
  | _ => []
  end.

(** The number of trailing padding characters that count: 0, 1 or 2. *)
Definition padding (s : list Z) : nat :=
  match reverse s with
  | c1 :: c2 :: _ => if decide (c1 = PAD) then if decide (c2 = PAD) then 2 else 1 else 0
  | _ => 0
  end%nat.
(** Well-formed padded base64 text: whole groups of 4, alphabet characters followed only by its padding. *)
Definition well_formed (s : list Z) : Prop :=
  (length s mod 4 = 0)%nat /\ length (leading_digits s) = (length s - padding s)%nat.
(** A C string: no 0 inside, one at the end. *)
Definition no_nul (s : list Z) : Prop := Forall (fun c => 1 <= c <= 255) s.
