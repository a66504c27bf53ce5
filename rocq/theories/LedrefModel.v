(** The objects of LedgerModel.v with the references of their users. Channels, sliding windows, tokens and arrays are THANDLEs (inc/c_util/channel.h, sliding_window_average_by_count.h, cancellation_token.h, tarray_ll.h:45):
    a count in their memory says how many references there are, and whoever gives up the last one disposes of the object and frees the memory. THANDLE is not in the repository (deps/c-pal); it is modelled as in DESIGN.md.
    Worker threads (worker_thread.c, tp_worker_thread.c) are not counted: there is one reference, and giving it up stands for their destroy function. One thread. *)
From Verif Require Import Common LedgerModel.
Local Open Scope Z_scope.

Record shared := Shared { led : ledger; counts : gmap id nat }.
(** channel.h:41, sliding_window_average_by_count.h:28, cancellation_token.h:19, tarray_ll.h:45; not worker_thread.h and tp_worker_thread.h *)
Definition is_thandle (w : what) : bool := match w with Worker _ | TpWorker _ _ => false | _ => true end.
(** The creations of LedgerModel.v; THANDLE_MALLOC starts the count at 1. *)
Definition new (w : what) (b1 b2 b3 : bool) : M shared (option id) := fun t =>
  match create w b1 b2 b3 (led t) with
  | Done (Some h, s) => Done (Some h, Shared s (<[h := 1%nat]> (counts t)))
  | Done (None, s) => Done (None, Shared s (counts t))
  | Undef => Undef
  | NoFuel => NoFuel
  end.
(** THANDLE_INITIALIZE, and the first half of THANDLE_ASSIGN *)
Definition copy (h : id) : M shared unit := fun t =>
  match counts t !! h with
  | Some c => Done (tt, Shared (led t) (<[h := S c]> (counts t)))
  | None => Undef
  end.
(** THANDLE_ASSIGN with NULL, the second half of THANDLE_ASSIGN; worker_thread_destroy (worker_thread.c:140-164), tp_worker_thread_destroy (tp_worker_thread.c:116-138) *)
Definition give_up (w : what) (h : id) : M shared unit := fun t =>
  match counts t !! h with
  | Some (S (S c)) => Done (tt, Shared (led t) (<[h := S c]> (counts t)))
  | Some (S O) => match destroy w h (led t) with Done (_, s) => Done (tt, Shared s (delete h (counts t))) | Undef => Undef | NoFuel => NoFuel end
  | _ => Undef
  end.
(** Histories: the list is that of the references that users have, one entry for each. *)
Inductive sharing (refs0 : nat -> nat) : shared -> list (id * what) -> Prop :=
| s_start : sharing refs0 (Shared (Ledger 0 ∅ ∅ refs0) ∅) []
| s_new t l w b1 b2 b3 h t' : sharing refs0 t l -> new w b1 b2 b3 t = Done (Some h, t') -> sharing refs0 t' ((h, w) :: l)
| s_fail t l w b1 b2 b3 t' : sharing refs0 t l -> new w b1 b2 b3 t = Done (None, t') -> sharing refs0 t' l
| s_copy t l h w t' : sharing refs0 t l -> (h, w) ∈ l -> is_thandle w = true -> copy h t = Done (tt, t') -> sharing refs0 t' ((h, w) :: l)
| s_give_up t l1 h w l2 t' : sharing refs0 t (l1 ++ (h, w) :: l2) -> give_up w h t = Done (tt, t') -> sharing refs0 t' (l1 ++ l2).
