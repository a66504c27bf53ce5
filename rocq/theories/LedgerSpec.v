(** What objects own. *)
From Verif Require Import Common LedgerModel.
Local Open Scope Z_scope.

(** How many things of a kind an object owns. *)
Definition owns (w : what) (k : rkind) : nat :=
  match w, k with
  | Channel _ _, _ => 1
  | Window _, Mem | Window _, Lock | Worker _, Mem | Worker _, Sm | TpWorker _ _, Mem | TpWorker _ _, Sm => 1
  | Token, Mem | TArray _, Mem => 2
  | Token, Lock => 1
  | _, _ => 0
  end.
(** How many references to r an object holds. *)
Definition is (r : nat) (x : option nat) : nat := if decide (x = Some r) then 1 else 0.
Definition holds (w : what) (r : nat) : nat :=
  match w with
  | Channel log_context threadpool => is r log_context + is r threadpool
  | TpWorker e _ => is r e
  | _ => 0
  end.
Definition total (f : what -> nat) (l : list (id * what)) : nat := sum_list_with (fun x => f x.2) l.
(** How many things of a kind exist. *)
Definition existing (k : rkind) (s : ledger) : nat := length (filter (fun x => x.2 = k) (map_to_list (live s))).
(** Whether creation succeeds. *)
Definition succeeds (w : what) (b1 b2 b3 : bool) : bool :=
  match w with
  | Channel _ _ => b1 && b2 && b3
  | Window wc => (1 <=? wc) && b1 && b2
  | Worker f => f && b1 && b2
  | TpWorker e f => bool_decide (e <> None) && f && b1 && b2
  | Token => b1 && b2 && b3
  | TArray capacity => negb (capacity =? 0) && b1 && b2
  end.
