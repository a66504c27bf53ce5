(** The objects to which there are references. *)
From Verif Require Import Common LedgerModel.

Global Instance what_eq : EqDecision what.
Proof. solve_decision. Defined.
(** Each object once, however many references to it there are. *)
Definition referenced (l : list (id * what)) : list (id * what) := remove_dups l.
