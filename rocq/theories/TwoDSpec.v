(** What a TWO_D_ARRAY is to its user: a partial map from row indices to rows of the same number of cells. The calls and their effect. *)
From Verif Require Import Common Block CMem CArr TwoDModel.
Local Open Scope Z_scope.
Local Open Scope cmonad_scope.

Record twod := TwoD { arows : Z; acols : Z; content : gmap Z (list (option Z)) }.
Notation arrays := (gmap positive twod).

(** ReadCell and WriteCell are the user's accesses through the row pointer that GET_ROW gives. *)
Inductive op := Create (r c : Z) | Free (h : ptr) | AllocRow (h : ptr) (i : Z) | FreeRow (h : ptr) (i : Z) | GetRow (h : ptr) (i : Z) (out : bool)
| ReadCell (h : positive) (i : Z) (j : nat) | WriteCell (h : positive) (i : Z) (j : nat) (v : Z).
(** A handle; nothing; success or failure; what GET_ROW answers (and whether it gave a row); a cell. *)
Inductive res := RHandle (h : ptr) | RUnit | RBool (ok : bool) | RRow (c : get_row_result) | RVal (v : Z).
Definition run (hdr szT : Z) (o : op) : MM res :=
  match o with
  | Create r c => let* h := TWO_D_ARRAY_CREATE hdr r c in ret (RHandle h)
  | Free h => TWO_D_ARRAY_FREE h ;;; ret RUnit
  | AllocRow h i => let* b := TWO_D_ARRAY_ALLOCATE_NEW_ROW szT h i in ret (RBool b)
  | FreeRow h i => let* b := TWO_D_ARRAY_FREE_ROW h i in ret (RBool b)
  | GetRow h i out => let* x := TWO_D_ARRAY_GET_ROW h i out in ret (RRow x.1)
  | ReadCell h i j => let* x := TWO_D_ARRAY_GET_ROW (Some h) i true in let* v := arr_get x.2 j in ret (RVal v)
  | WriteCell h i j v => let* x := TWO_D_ARRAY_GET_ROW (Some h) i true in arr_set x.2 j v ;;; ret RUnit
  end.

Definition answers (x : res) (a : arrays) (r : res) (a' : arrays) : Prop := r = x /\ a' = a.
(** Row i of t becomes [row] (None: unallocated). *)
Definition set_row (t : twod) (i : Z) (row : option (list (option Z))) : twod :=
  TwoD (arows t) (acols t) (match row with Some c => <[i := c]> (content t) | None => delete i (content t) end).
Definition effect (o : op) (a : arrays) (r : res) (a' : arrays) : Prop :=
  let on (h : positive) (k : twod -> Prop) : Prop := exists t, a !! h = Some t /\ k t in
  match o with
  | Create rs cs =>
    if decide (rs = 0 \/ cs = 0) then answers (RHandle None) a r a'
    else exists h, a !! h = None /\ r = RHandle (Some h) /\ a' = <[h := TwoD rs cs ∅]> a
  | Free None => answers RUnit a r a'
  | Free (Some h) => r = RUnit /\ a' = delete h a
  | AllocRow None _ | FreeRow None _ => answers (RBool false) a r a'
  | AllocRow (Some h) i => on h (fun t =>
      if decide (i < arows t /\ content t !! i = None)
      then r = RBool true /\ a' = <[h := set_row t i (Some (replicate (Z.to_nat (acols t)) None))]> a
      else answers (RBool false) a r a')
  | FreeRow (Some h) i => on h (fun t =>
      if decide (is_Some (content t !! i)) then r = RBool true /\ a' = <[h := set_row t i None]> a else answers (RBool false) a r a')
  | GetRow (Some h) i true => on h (fun t =>
      answers (RRow (if decide (i < arows t) then match content t !! i with Some _ => GET_ROW_OK | None => GET_ROW_NOT_ALLOCATED end else GET_ROW_INVALID_ARGS)) a r a')
  | GetRow _ _ _ => answers (RRow GET_ROW_INVALID_ARGS) a r a'
  | ReadCell h i j => on h (fun t => exists c v, content t !! i = Some c /\ c !! j = Some (Some v) /\ answers (RVal v) a r a')
  | WriteCell h i j v => on h (fun t => exists c, content t !! i = Some c /\ r = RUnit /\ a' = <[h := set_row t i (Some (<[j := Some v]> c))]> a)
  end.
(** A failing call changes nothing. *)
Definition failed (o : op) (a : arrays) (r : res) (a' : arrays) : Prop :=
  match o with
  | Create _ _ => answers (RHandle None) a r a'
  | AllocRow (Some h) i => (exists t, a !! h = Some t /\ i < arows t /\ content t !! i = None) /\ answers (RBool false) a r a'
  | _ => False
  end.
(** The new object would not fit in the address space. *)
Definition too_big (hdr szT : Z) (o : op) (a : arrays) : Prop :=
  match o with
  | Create rs _ => UINT64_MAX < hdr + rs * 8
  | AllocRow (Some h) _ => exists t, a !! h = Some t /\ UINT64_MAX < acols t * szT
  | _ => False
  end.
(** Live handles; reads of cells that have been written, writes inside an allocated row. *)
Definition live (a : arrays) (h : ptr) : Prop := match h with None => True | Some h => is_Some (a !! h) end.
Definition allowed (a : arrays) (o : op) : Prop :=
  match o with
  | Create r c => is_u32 r /\ is_u32 c
  | Free h => live a h
  | AllocRow h i | FreeRow h i | GetRow h i _ => live a h /\ is_u32 i
  | ReadCell h i j => exists t c v, a !! h = Some t /\ content t !! i = Some c /\ c !! j = Some (Some v)
  | WriteCell h i j v => exists t c, a !! h = Some t /\ content t !! i = Some c /\ (j < length c)%nat
  end.
