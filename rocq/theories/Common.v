(** Shared vocabulary: outcomes with undefined behaviour, a state monad over them, fixed width integers. *)
From stdpp Require Export prelude gmap list.
From Coq Require Export ZArith Lia.
From Coq Require Export ZifyBool ZifyNat ZifyN.

(** Result of running a piece of C code: a value, or undefined behaviour
    (out-of-bounds access, use after free, NULL dereference, signed overflow, read of uninitialised memory),
    or (for loops transcribed with an iteration bound) the bound was too small: the C loop would still be running. *)
Inductive outcome (A : Type) : Type :=
| Done (a : A)
| Undef
| NoFuel.
Arguments Done {A} a.
Arguments Undef {A}.
Arguments NoFuel {A}.

(** Code that runs in a state [S] (a heap, a set of blocks, an allocation oracle, ...). *)
Definition M (S A : Type) : Type := S -> outcome (A * S).

Definition ret {S A} (a : A) : M S A := fun s => Done (a, s).
Definition bind {S A B} (m : M S A) (k : A -> M S B) : M S B :=
  fun s => match m s with
           | Done (a, s') => k a s'
           | Undef => Undef
           | NoFuel => NoFuel
           end.
Definition nofuel {S A} : M S A := fun _ => NoFuel.
Definition undef {S A} : M S A := fun _ => Undef.
Definition get {S} : M S S := fun s => Done (s, s).
Definition put {S} (s : S) : M S unit := fun _ => Done (tt, s).

Declare Scope cmonad_scope.
Delimit Scope cmonad_scope with cm.
Notation "'let*' x ':=' m 'in' k" := (bind m (fun x => k))
  (at level 200, x pattern, m at level 100, k at level 200, right associativity) : cmonad_scope.
Notation "m ';;;' k" := (bind m (fun _ => k))
  (at level 100, right associativity) : cmonad_scope.

Local Open Scope Z_scope.

(** Unsigned fixed width integers: C arithmetic on them wraps. *)
Definition UINT32_MOD : Z := 4294967296.             (* 2^32 *)
Definition UINT64_MOD : Z := 18446744073709551616.   (* 2^64 *)
Definition UINT32_MAX : Z := 4294967295.
Definition UINT64_MAX : Z := 18446744073709551615.
Definition INT32_MAX : Z := 2147483647.
Definition INT32_MIN : Z := -2147483648.
Definition INT64_MAX : Z := 9223372036854775807.
Definition INT64_MIN : Z := -9223372036854775808.
Definition u32 (z : Z) : Z := z mod UINT32_MOD.
Definition u64 (z : Z) : Z := z mod UINT64_MOD.

Definition is_u32 (z : Z) : Prop := 0 <= z <= UINT32_MAX.
Definition is_u64 (z : Z) : Prop := 0 <= z <= UINT64_MAX.
Definition is_i32 (z : Z) : Prop := INT32_MIN <= z <= INT32_MAX.
Definition is_i64 (z : Z) : Prop := INT64_MIN <= z <= INT64_MAX.

(** Bytes are integers 0..255; byte strings are lists of them. *)
Definition is_byte (z : Z) : Prop := 0 <= z <= 255.
Notation bytes := (list Z).
Definition all_bytes (l : bytes) : Prop := Forall is_byte l.
