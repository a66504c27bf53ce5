(** Big-endian byte strings. *)
From Verif Require Import Common Block.
Local Open Scope Z_scope.

(** The value of a byte string, most significant byte first. *)
Fixpoint be_value (l : bytes) : Z :=
  match l with [] => 0 | b :: l' => b * 256 ^ (Z.of_nat (length l')) + be_value l' end.
(** The n-byte big-endian representation of v (modulo 256^n). *)
Fixpoint be_bytes (n : nat) (v : Z) : bytes :=
  match n with O => [] | S n' => (v / 256 ^ (Z.of_nat n')) mod 256 :: be_bytes n' v end.
(** The value of a byte string read as a two's complement signed number. *)
Definition be_signed (l : bytes) : Z :=
  let n := 256 ^ Z.of_nat (length l) in
  if be_value l <? n / 2 then be_value l else be_value l - n.

