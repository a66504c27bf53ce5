(** What a TARRAY is to its user: its elements (None: not written yet), as many as its capacity. The calls and their effect. *)
From Verif Require Import Common Block CMem CArr TArrayModel.
Local Open Scope Z_scope.
Local Open Scope cmonad_scope.

Record tarr := TArr { elems : list (option Z); has_cleanup : bool }.
Notation arrays := (gmap positive tarr).
Definition cap_of (t : tarr) : Z := Z.of_nat (length (elems t)).

(** CreateDefault: TARRAY_CREATE. *)
Inductive op := Create (cap : Z) (cl : bool) | CreateDefault | Free (h : ptr) | Ensure (h : ptr) (cap : Z) | Get (h : positive) (i : nat) | Set_ (h : positive) (i : nat) (v : Z).
(** A handle; what the cleanup function was called with; success or failure; an element; nothing. *)
Inductive res := RHandle (h : ptr) | RCleanup (seen : option (list (option Z))) | RBool (ok : bool) | RVal (v : Z) | RUnit.
Definition run (szT : Z) (o : op) : MM res :=
  match o with
  | Create cap cl => let* r := TARRAY_CREATE_WITH_CAPACITY_AND_CLEANUP szT cap cl in ret (RHandle r)
  | CreateDefault => let* r := TARRAY_CREATE szT in ret (RHandle r)
  | Free h => let* r := TARRAY_FREE h in ret (RCleanup r)
  | Ensure h cap => let* r := TARRAY_ENSURE_CAPACITY szT h cap in ret (RBool r)
  | Get h i => let* r := elem_get h i in ret (RVal r)
  | Set_ h i v => elem_set h i v ;;; ret RUnit
  end.

(** The capacity after growing from [old] to hold [cap] elements: doubled as often as needed. *)
Definition grown (old cap new : Z) : Prop := (exists k, 0 <= k /\ new = old * 2 ^ k) /\ cap <= new < 2 * cap.

Definition answers (x : res) (a : arrays) (r : res) (a' : arrays) : Prop := r = x /\ a' = a.
Definition effect (o : op) (a : arrays) (r : res) (a' : arrays) : Prop :=
  match o with
  | Create cap cl =>
    if decide (cap = 0) then answers (RHandle None) a r a'
    else exists h, a !! h = None /\ r = RHandle (Some h) /\ a' = <[h := TArr (replicate (Z.to_nat cap) None) cl]> a
  | CreateDefault => exists h, a !! h = None /\ r = RHandle (Some h) /\ a' = <[h := TArr [None] false]> a                 (* room for one element, no cleanup function *)
  | Free None => answers (RCleanup None) a r a'
  | Free (Some h) => exists t, a !! h = Some t /\ r = RCleanup (if has_cleanup t then Some (elems t) else None) /\ a' = delete h a
  | Ensure None _ => answers (RBool false) a r a'
  | Ensure (Some h) cap => exists t, a !! h = Some t /\
      if decide (cap <= cap_of t) then answers (RBool true) a r a'
      else if decide (2 ^ 31 < cap) then answers (RBool false) a r a'
      else exists new, grown (cap_of t) cap new /\ r = RBool true /\
             a' = <[h := TArr (elems t ++ replicate (Z.to_nat (new - cap_of t)) None) (has_cleanup t)]> a
  | Get h i => exists t v, a !! h = Some t /\ elems t !! i = Some (Some v) /\ answers (RVal v) a r a'
  | Set_ h i v => exists t, a !! h = Some t /\ r = RUnit /\ a' = <[h := TArr (<[i := Some v]> (elems t)) (has_cleanup t)]> a
  end.
(** A failing call changes nothing. *)
Definition failed (o : op) (a : arrays) (r : res) (a' : arrays) : Prop :=
  match o with
  | Create _ _ | CreateDefault => answers (RHandle None) a r a'
  | Ensure (Some _) _ => answers (RBool false) a r a'
  | _ => False
  end.
(** The new array would not fit in the address space. *)
Definition too_big (szT : Z) (o : op) (a : arrays) : Prop :=
  match o with
  | Create cap _ => UINT64_MAX < cap * szT
  | CreateDefault => UINT64_MAX < szT
  | Ensure (Some h) cap => exists t new, a !! h = Some t /\ grown (cap_of t) cap new /\ UINT64_MAX < new * szT
  | _ => False
  end.
(** Handles are live, reads are of elements that have been written, writes inside the capacity. *)
Definition allowed (a : arrays) (o : op) : Prop :=
  match o with
  | Create cap _ => is_u32 cap
  | CreateDefault => True
  | Free None | Ensure None _ => True
  | Free (Some h) => is_Some (a !! h)
  | Ensure (Some h) cap => is_Some (a !! h) /\ is_u32 cap
  | Get h i => exists t v, a !! h = Some t /\ elems t !! i = Some (Some v)
  | Set_ h i v => exists t, a !! h = Some t /\ (i < length (elems t))%nat
  end.
