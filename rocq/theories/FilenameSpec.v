(** File names: a directory part (empty, or ending with a separator), and a final component without separators. *)
From Verif Require Import Common.

Definition splits (sep : list Z) (f dir name : bytes) : Prop :=
  f = dir ++ name /\ (dir = [] \/ exists d c, dir = d ++ [c] /\ c ∈ sep) /\ Forall (fun c => c ∉ sep) name.
(** [x] inserted just before the last '.' of a name, or appended if the name has none. *)
Definition with_suffix (name x name' : bytes) : Prop :=
  (exists base ext, name = base ++ 46%Z :: ext /\ 46%Z ∉ ext /\ name' = base ++ x ++ 46%Z :: ext) \/ (46%Z ∉ name /\ name' = name ++ x).
Definition backslash : list Z := [92%Z].
Definition both_slashes : list Z := [92%Z; 47%Z].
