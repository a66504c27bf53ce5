(** Blocks of memory: a list of cells, each an initialised byte or not yet written ([None]).
    Reading outside of the block, or reading a cell that was never written, and writing outside of it are
    undefined behaviour. *)
From Verif Require Import Common.

Notation block := (list (option Z)).

(** A freshly malloc'd block of [n] bytes: contents unspecified. *)
Definition fresh_block (n : nat) : block := replicate n None.
(** A block whose contents are these bytes. *)
Definition bytes_block (l : bytes) : block := Some <$> l.

(** b[i] *)
Definition rd (i : nat) : M block Z :=
  fun b => match b !! i with Some (Some v) => Done (v, b) | _ => Undef end.
(** b[i] = v *)
Definition wr (i : nat) (v : Z) : M block unit :=
  fun b => match b !! i with Some _ => Done (tt, <[i := Some v]> b) | None => Undef end.
(** Read access to a constant array (not part of the state). *)
Definition at_ {S} (l : bytes) (i : nat) : M S Z :=
  fun s => match l !! i with Some v => Done (v, s) | None => Undef end.
(** memcpy(b + i, src, length of src) *)
Fixpoint wr_all (i : nat) (src : bytes) : M block unit :=
  match src with
  | [] => ret tt
  | v :: src' => bind (wr i v) (fun _ => wr_all (S i) src')
  end.
(** memcpy(dst, b + i, n): the n bytes starting at i. *)
Fixpoint rd_all (i n : nat) : M block bytes :=
  match n with
  | O => ret []
  | S n' => bind (rd i) (fun v => bind (rd_all (S i) n') (fun l => ret (v :: l)))
  end.

(** [put_at p l b]: block b with the bytes l at offset p, everything else unchanged. *)
Definition put_at (p : nat) (l : bytes) (b : block) : block :=
  take p b ++ bytes_block l ++ drop (p + length l) b.
(** [has_at p l b]: the bytes of b at offset p are l. *)
Definition has_at (p : nat) (l : bytes) (b : block) : Prop :=
  forall i v, l !! i = Some v -> b !! (p + i)%nat = Some (Some v).

Local Open Scope Z_scope.
(** Conversion of an integer to a signed type of 8, 16, 32, 64 bits (two's complement wrap). *)
Definition wrap_signed (n : Z) (z : Z) : Z := (z + 2 ^ (n - 1)) mod 2 ^ n - 2 ^ (n - 1).
Definition i8 := wrap_signed 8.
Definition i16 := wrap_signed 16.
Definition i32 := wrap_signed 32.
Definition i64 := wrap_signed 64.
