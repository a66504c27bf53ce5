(** C strings over the heap of CMem. A const char* argument is either an array of the caller, outside of the heap, or
    points at the start of a heap block. *)
From Verif Require Import Common Block CMem.
Local Open Scope cmonad_scope.

Inductive csrc := CExt (arr : bytes) | CPtr (p : positive).

Section cstr.
Context {O : Type}.

(** The cells behind a const char*. *)
Definition cells (c : csrc) : M (st O) block := fun s =>
  match c with
  | CExt arr => Done (bytes_block arr, s)
  | CPtr p => match mem s !! p with Some b => Done (b, s) | None => Undef end
  end.
(** strlen: scans for the first 0; reading an unspecified byte or past the end is undefined behaviour. *)
Fixpoint scan0 (b : block) : option nat :=
  match b with
  | Some c :: b => if decide (c = 0%Z) then Some 0 else S <$> scan0 b
  | _ => None
  end.
Definition strlen (c : csrc) : M (st O) nat :=
  let* b := cells c in match scan0 b with Some n => ret n | None => undef end.
(** c[i] *)
Definition char_at (c : csrc) (i : nat) : M (st O) Z :=
  let* b := cells c in match b !! i with Some (Some v) => ret v | _ => undef end.
(** memcpy(d + doff, c + off, n) *)
Definition strcpy_n (d : ptr) (doff : nat) (c : csrc) (off n : nat) : M (st O) unit :=
  match c with
  | CExt arr => memcpy_from d doff (drop off arr) n
  | CPtr p => memcpy d doff (Some p) off n
  end.
(** p[i] = v *)
Definition set_char (p : ptr) (i : nat) (v : Z) : M (st O) unit := store p i [Some v].
(** memmove(d + doff, c, n): as memcpy, but the ranges may overlap. *)
Definition memmove (d : ptr) (doff : nat) (c : csrc) (n : nat) : M (st O) unit :=
  match c with
  | CExt arr => memcpy_from d doff arr n
  | CPtr p => if decide (n = 0) then ret tt else let* v := load (Some p) 0 n in store d doff v
  end.
(** strcmp: only the sign of its result is specified; the model answers -1, 0 or 1. Characters compare as unsigned char. *)
Fixpoint cmp0 (a b : block) : option Z :=
  match a, b with
  | Some x :: a, Some y :: b =>
    if decide (x = y) then (if decide (x = 0%Z) then Some 0%Z else cmp0 a b)
    else Some (if decide (x < y)%Z then (-1)%Z else 1%Z)
  | _, _ => None
  end.
Definition strcmp (c1 c2 : csrc) : M (st O) Z :=
  let* a := cells c1 in let* b := cells c2 in match cmp0 a b with Some z => ret z | None => undef end.
End cstr.
