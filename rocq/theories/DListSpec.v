(** Specification for the doubly linked list: what it means for a heap to hold a list,
    and the list operations as operations on plain sequences. *)
From Verif Require Import Common.

Section Spec.
Notation ptr := positive.
Notation heap := (gmap positive (positive * positive)).

Definition flink (h : heap) (p : ptr) : option ptr := fst <$> h !! p.
Definition blink (h : heap) (p : ptr) : option ptr := snd <$> h !! p.

(** From [a], following Flink visits [l] and then reaches [b]; Blink goes the other way. *)
Fixpoint links (h : heap) (a : ptr) (l : list ptr) (b : ptr) : Prop :=
  match l with
  | [] => flink h a = Some b /\ blink h b = Some a
  | x :: l' => flink h a = Some x /\ blink h x = Some a /\ links h x l' b
  end.

(** [h] holds the circular list with head [head] and entries [l], all distinct. *)
Definition is_dlist (h : heap) (head : ptr) (l : list ptr) : Prop :=
  NoDup (head :: l) /\ links h head l head.

(** Walks of [n] steps, independent of the predicate above. *)
Fixpoint walk (next : ptr -> option ptr) (n : nat) (p : ptr) : list ptr :=
  match n with
  | O => []
  | S n' => match next p with Some q => q :: walk next n' q | None => [] end
  end.

(** A collection of lists: each head with its entries. *)
Notation lists := (gmap positive (list positive)).

(** The heap holds every list of the collection and no address is used twice. *)
Definition holds (h : heap) (L : lists) : Prop :=
  (forall hd l, L !! hd = Some l -> is_dlist h hd l) /\
  (forall hd1 l1 hd2 l2 a, L !! hd1 = Some l1 -> L !! hd2 = Some l2 ->
     a ∈ hd1 :: l1 -> a ∈ hd2 :: l2 -> hd1 = hd2).

(** [a] is used by no list of the collection. *)
Definition unused (L : lists) (a : ptr) : Prop :=
  forall hd l, L !! hd = Some l -> a ∉ hd :: l.

Inductive dop :=
| Init (hd : ptr)             (* initialise a new, unused list head *)
| InsertTail (hd e : ptr)
| InsertHead (hd e : ptr)
| RemoveEntry (hd e : ptr)    (* e is an entry of the list with head hd *)
| DetachHead (hd : ptr)       (* RemoveEntryList on the head itself: the rest becomes a headless ring *)
| RemoveHead (hd : ptr)
| RemoveTail (hd : ptr)
| AppendTail (hd e : ptr)     (* append the headless ring that starts at e *)
| IsEmpty (hd : ptr).

Inductive dres := RUnit | RBool (b : bool) | RPtr (p : ptr).

Definition remove_one (e : ptr) (l : list ptr) : list ptr := filter (fun x => x <> e) l.

(** What each operation is allowed to be called with, what it returns, and what the lists become. *)
Inductive dspec (mapped : ptr -> Prop) (L : lists) : dop -> dres -> lists -> Prop :=
| S_Init hd : mapped hd -> unused L hd ->
    dspec mapped L (Init hd) RUnit (<[hd := []]> L)
| S_InsertTail hd l e : L !! hd = Some l -> mapped e -> unused L e ->
    dspec mapped L (InsertTail hd e) RUnit (<[hd := l ++ [e]]> L)
| S_InsertHead hd l e : L !! hd = Some l -> mapped e -> unused L e ->
    dspec mapped L (InsertHead hd e) RUnit (<[hd := e :: l]> L)
| S_RemoveEntry hd l e : L !! hd = Some l -> e ∈ l ->
    dspec mapped L (RemoveEntry hd e) (RBool (bool_decide (remove_one e l = []))) (<[hd := remove_one e l]> L)
| S_DetachHead hd x l : L !! hd = Some (x :: l) ->
    dspec mapped L (DetachHead hd) (RBool (bool_decide (l = []))) (<[x := l]> (delete hd L))
| S_RemoveHead_empty hd : L !! hd = Some [] ->
    dspec mapped L (RemoveHead hd) (RPtr hd) L
| S_RemoveHead hd x l : L !! hd = Some (x :: l) ->
    dspec mapped L (RemoveHead hd) (RPtr x) (<[hd := l]> L)
| S_RemoveTail_empty hd : L !! hd = Some [] ->
    dspec mapped L (RemoveTail hd) (RPtr hd) L
| S_RemoveTail hd l x : L !! hd = Some (l ++ [x]) ->
    dspec mapped L (RemoveTail hd) (RPtr x) (<[hd := l]> L)
| S_AppendTail hd l e rest : L !! hd = Some l -> L !! e = Some rest -> hd <> e ->
    dspec mapped L (AppendTail hd e) RUnit (<[hd := l ++ e :: rest]> (delete e L))
| S_IsEmpty hd l : L !! hd = Some l ->
    dspec mapped L (IsEmpty hd) (RBool (bool_decide (l = []))) L.

(** The addresses an operation may write: the lists it works on and the entry it is given. *)
Definition touched (L : lists) (o : dop) (a : ptr) : Prop :=
  let in_list hd := exists l, L !! hd = Some l /\ a ∈ hd :: l in
  match o with
  | Init hd => a = hd
  | InsertTail hd e | InsertHead hd e => a = e \/ in_list hd
  | RemoveEntry hd _ | DetachHead hd | RemoveHead hd | RemoveTail hd => in_list hd
  | AppendTail hd e => in_list hd \/ in_list e
  | IsEmpty _ => False
  end.

(** A history: operations with their results. *)
Inductive dspec_run (mapped : ptr -> Prop) : lists -> list dop -> list dres -> lists -> Prop :=
| R_nil L : dspec_run mapped L [] [] L
| R_cons L o r L' os rs L'' :
    dspec mapped L o r L' -> dspec_run mapped L' os rs L'' ->
    dspec_run mapped L (o :: os) (r :: rs) L''.
End Spec.
Arguments dspec _ _ _ _ _ : clear implicits.

(** Which function of the library each operation calls. *)
From Verif Require Import DListModel.
Local Open Scope cmonad_scope.
Definition exec (o : dop) : M (gmap positive (positive * positive)) dres :=
  match o with
  | Init hd => DList_InitializeListHead hd ;;; ret RUnit
  | InsertTail hd e => DList_InsertTailList hd e ;;; ret RUnit
  | InsertHead hd e => DList_InsertHeadList hd e ;;; ret RUnit
  | RemoveEntry _ e => let* b := DList_RemoveEntryList e in ret (RBool b)
  | DetachHead hd => let* b := DList_RemoveEntryList hd in ret (RBool b)
  | RemoveHead hd => let* p := DList_RemoveHeadList hd in ret (RPtr p)
  | RemoveTail hd => let* p := DList_RemoveTailList hd in ret (RPtr p)
  | AppendTail hd e => DList_AppendTailList hd e ;;; ret RUnit
  | IsEmpty hd => let* b := DList_IsListEmpty hd in ret (RBool b)
  end.

Fixpoint exec_all (os : list dop) : M (gmap positive (positive * positive)) (list dres) :=
  match os with
  | [] => ret []
  | o :: os' => let* r := exec o in let* rs := exec_all os' in ret (r :: rs)
  end.

(** ForEach on a plain sequence: run the action on each entry in order; stop with failure when the action
    fails, stop with success when it asks to stop. *)
Fixpoint foreach_seq {S} (action : positive -> M S (bool * bool)) (l : list positive) : M S bool :=
  match l with
  | [] => ret true
  | e :: l' =>
      let* rc := action e in
      if negb rc.1 then ret false else if negb rc.2 then ret true else foreach_seq action l'
  end.

(** An example of an action that changes the list while it is walked: unlink and free the entries
    selected by [sel], and record every entry visited. *)
Definition unlink_and_free (sel : positive -> bool) (e : positive)
    : M (gmap positive (positive * positive) * list positive) (bool * bool) := fun '(h, visited) =>
  if sel e then
    match DList_RemoveEntryList e h with
    | Done (_, h') => Done ((true, true), (delete e h', visited ++ [e]))
    | Undef => Undef
    | NoFuel => NoFuel
    end
  else Done ((true, true), (h, visited ++ [e])).
