(** Specification of SINGLYLINKEDLIST: a set of lists, each a sequence of (item handle, item value) pairs.
    Nothing here mentions nodes, heads or tails, except [holds], which says what it means for the memory of the model
    to hold a set of sequences. *)
From Verif Require Import Common SListModel.

Notation lists := (gmap positive (list (positive * Z))).

(** ** Operations on sequences *)

(** No list has an item with this handle. *)
Definition unused_item (L : lists) (p : positive) : bool :=
  bool_decide (map_Forall (fun _ l => p ∉ l.*1) L).
(** The item handles of all lists, searched for one handle: the rest of its list, itself first. *)
Fixpoint suffix_at (p : positive) (l : list (positive * Z)) : option (list (positive * Z)) :=
  match l with
  | [] => None
  | (a, v) :: l' => if decide (a = p) then Some l else suffix_at p l'
  end.
Fixpoint remove_item (p : positive) (l : list (positive * Z)) : list (positive * Z) :=
  match l with
  | [] => []
  | (a, v) :: l' => if decide (a = p) then l' else (a, v) :: remove_item p l'
  end.
(** First matching item, and the user state after the calls made: items in order, none after the match. *)
Fixpoint find_seq {U} (f : positive -> Z -> U -> bool * U) (l : list (positive * Z)) (u : U) : option positive * U :=
  match l with
  | [] => (None, u)
  | (a, v) :: l' => match f a v u with (true, u') => (Some a, u') | (false, u') => find_seq f l' u' end
  end.
(** Items in order: drop the ones the condition accepts; stop when it does not ask to continue. *)
Fixpoint remove_if_seq {U} (f : Z -> U -> bool * bool * U) (l : list (positive * Z)) (u : U) : list (positive * Z) * U :=
  match l with
  | [] => ([], u)
  | (a, v) :: l' =>
    let '(rem, cont, u1) := f v u in
    let '(rest, u2) := if (cont : bool) then remove_if_seq f l' u1 else (l', u1) in
    (if (rem : bool) then rest else (a, v) :: rest, u2)
  end.
Fixpoint foreach_items {U} (f : Z -> U -> bool * U) (l : list (positive * Z)) (u : U) : U :=
  match l with
  | [] => u
  | (a, v) :: l' => match f v u with (true, u') => foreach_items f l' u' | (false, u') => u' end
  end.

(** ** The API as an abstract machine.
    An operation carries its arguments and the result of the allocation it performs ([None]: allocation failed). *)
Inductive slop (U : Type) :=
| Create (alloc : ptr)
| Destroy (list : ptr)
| Add (alloc list : ptr) (item : Z)
| AddHead (alloc list : ptr) (item : Z)
| Remove (list item : ptr)
| GetHead (list : ptr)
| GetNext (item : ptr)
| GetValue (item : ptr)
| Find (list : ptr) (f : option (positive -> Z -> U -> bool * U)) (u : U)
| RemoveIf (list : ptr) (f : option (Z -> U -> bool * bool * U)) (u : U)
| Foreach (list : ptr) (f : option (Z -> U -> bool * U)) (u : U).
Arguments Create {U}. Arguments Destroy {U}. Arguments Add {U}. Arguments AddHead {U}. Arguments Remove {U}.
Arguments GetHead {U}. Arguments GetNext {U}. Arguments GetValue {U}. Arguments Find {U}. Arguments RemoveIf {U}.
Arguments Foreach {U}.

Inductive slres (U : Type) :=
| Unit_
| Ptr (p : ptr)            (** a list or item handle, NULL included *)
| Code (ok : bool)         (** 0 (true) or MU_FAILURE (false) *)
| Val (v : Z)              (** an item value *)
| PtrU (p : ptr) (u : U)   (** a handle, and the user state the callbacks left *)
| CodeU (ok : bool) (u : U).
Arguments Unit_ {U}. Arguments Ptr {U}. Arguments Code {U}. Arguments Val {U}. Arguments PtrU {U}. Arguments CodeU {U}.

(** [None]: the call breaks the caller's side of the contract (a handle that is not live) or malloc's (an address in use). *)
Definition spec_step {U} (L : lists) (o : slop U) : option (slres U * lists) :=
  match o with
  | Create None => Some (Ptr None, L)
  | Create (Some p) => if decide (L !! p = None) then Some (Ptr (Some p), <[p := []]> L) else None
  | Destroy None => Some (Unit_, L)
  | Destroy (Some k) => match L !! k with Some _ => Some (Unit_, delete k L) | None => None end
  | Add _ None _ => Some (Ptr None, L)
  | Add al (Some k) v =>
    match L !! k with
    | None => None
    | Some l =>
      match al with
      | None => Some (Ptr None, L)
      | Some a => if unused_item L a then
                    if decide (v = 0%Z) then Some (Ptr None, L) else Some (Ptr (Some a), <[k := l ++ [(a, v)]]> L)
                  else None
      end
    end
  | AddHead _ None _ => Some (Ptr None, L)
  | AddHead al (Some k) v =>
    match L !! k with
    | None => None
    | Some l =>
      match al with
      | None => Some (Ptr None, L)
      | Some a => if unused_item L a then Some (Ptr (Some a), <[k := (a, v) :: l]> L) else None
      end
    end
  | Remove (Some k) (Some p) =>
    match L !! k with
    | None => None
    | Some l => if decide (p ∈ l.*1) then Some (Code true, <[k := remove_item p l]> L) else Some (Code false, L)
    end
  | Remove _ _ => Some (Code false, L)
  | GetHead None => Some (Ptr None, L)
  | GetHead (Some k) => match L !! k with Some l => Some (Ptr (fst <$> head l), L) | None => None end
  | GetNext None => Some (Ptr None, L)
  | GetNext (Some p) =>
    match omap (fun kl => suffix_at p kl.2) (map_to_list L) with
    | (_ :: rest) :: _ => Some (Ptr (fst <$> head rest), L)
    | _ => None
    end
  | GetValue None => Some (Val 0, L)
  | GetValue (Some p) =>
    match omap (fun kl => suffix_at p kl.2) (map_to_list L) with
    | ((_, v) :: _) :: _ => Some (Val v, L)
    | _ => None
    end
  | Find (Some k) (Some f) u =>
    match L !! k with
    | Some l => let '(r, u') := find_seq f l u in Some (PtrU r u', L)
    | None => None
    end
  | Find _ _ u => Some (PtrU None u, L)
  | RemoveIf (Some k) (Some f) u =>
    match L !! k with
    | Some l => let '(l', u') := remove_if_seq f l u in Some (CodeU true u', <[k := l']> L)
    | None => None
    end
  | RemoveIf _ _ u => Some (CodeU false u, L)
  | Foreach (Some k) (Some f) u =>
    match L !! k with
    | Some l => Some (CodeU true (foreach_items f l u), L)
    | None => None
    end
  | Foreach _ _ u => Some (CodeU false u, L)
  end.

(** A history and the results it produces. *)
Fixpoint spec_run {U} (L : lists) (os : list (slop U)) : option (list (slres U) * lists) :=
  match os with
  | [] => Some ([], L)
  | o :: os =>
    match spec_step L o with
    | Some (r, L1) => match spec_run L1 os with Some (rs, L2) => Some (r :: rs, L2) | None => None end
    | None => None
    end
  end.

(** ** The same operations on the model. *)
Local Open Scope cmonad_scope.
Definition impl_step {U} (fuel : nat) (o : slop U) : M smem (slres U) :=
  match o with
  | Create al => let* r := sl_create al in ret (Ptr r)
  | Destroy k => sl_destroy fuel k ;;; ret Unit_
  | Add al k v => let* r := sl_add al k v in ret (Ptr r)
  | AddHead al k v => let* r := sl_add_head al k v in ret (Ptr r)
  | Remove k p => let* r := sl_remove fuel k p in ret (Code r)
  | GetHead k => let* r := sl_get_head_item k in ret (Ptr r)
  | GetNext p => let* r := sl_get_next_item p in ret (Ptr r)
  | GetValue p => let* r := sl_item_get_value p in ret (Val r)
  | Find k f u => let* (r, u) := sl_find fuel k f u in ret (PtrU r u)
  | RemoveIf k f u => let* (r, u) := sl_remove_if fuel k f u in ret (CodeU r u)
  | Foreach k f u => let* (r, u) := sl_foreach fuel k f u in ret (CodeU r u)
  end.
Fixpoint impl_run {U} (fuel : nat) (os : list (slop U)) : M smem (list (slres U)) :=
  match os with
  | [] => ret []
  | o :: os => let* r := impl_step fuel o in let* rs := impl_run fuel os in ret (r :: rs)
  end.

(** ** What the memory looks like.
    [chain ns start l]: following [next] from [start] visits exactly the pairs of [l] and then NULL. *)
Fixpoint chain (ns : gmap positive (Z * ptr)) (start : ptr) (l : list (positive * Z)) : Prop :=
  match l with
  | [] => start = None
  | (a, v) :: l' => start = Some a /\ exists nx, ns !! a = Some (v, nx) /\ chain ns nx l'
  end.
(** The memory holds the lists [L]: one block per list, whose head starts the chain and whose tail is the last
    item; item handles are all different; every allocated node belongs to a list (nothing leaks). *)
Record holds (m : smem) (L : lists) : Prop := Holds {
  holds_hdr : forall k l, L !! k = Some l ->
    exists hd, hdrs m !! k = Some (hd, fst <$> last l) /\ chain (nodes m) hd l /\ NoDup (l.*1);
  holds_none : forall k, L !! k = None -> hdrs m !! k = None;
  holds_disj : forall k1 k2 l1 l2 a, L !! k1 = Some l1 -> L !! k2 = Some l2 -> k1 <> k2 ->
    a ∈ l1.*1 -> a ∈ l2.*1 -> False;
  holds_noleak : forall a, is_Some (nodes m !! a) -> exists k l, L !! k = Some l /\ a ∈ l.*1
}.
