(** Model of src/singlylinkedlist.c (SINGLYLINKEDLIST).

    Memory: LIST_INSTANCE blocks and LIST_ITEM_INSTANCE blocks live in two finite maps from addresses (the two
    kinds of block never overlap). An address that is not in the map is not allocated: reading it or
    freeing it is undefined behaviour. Pointers are [option positive], NULL being [None]. The stored item pointers
    ([const void* ] in C) are integers, NULL being 0.
    The result of each malloc is an argument of the modelled function: [None] is an allocation failure.
    Callbacks ([match_function], [condition_function], [action_function]) are functions over an arbitrary user
    state [U] (match_context / action_context); they do not touch the list. *)
From Verif Require Import Common.
Local Open Scope cmonad_scope.

Notation ptr := (option positive).

(** singlylinkedlist.c:21-25 struct LIST_INSTANCE_TAG {head; tail};
    singlylinkedlist.c:15-19 struct LIST_ITEM_INSTANCE_TAG {item; next}. *)
Record smem := SMem { hdrs : gmap positive (ptr * ptr); nodes : gmap positive (Z * ptr) }.

(** Field accesses through pointers. *)
Definition rd_hdr (l : positive) : M smem (ptr * ptr) :=
  fun m => match hdrs m !! l with Some v => Done (v, m) | None => Undef end.
Definition wr_hdr (l : positive) (v : ptr * ptr) : M smem unit :=
  fun m => match hdrs m !! l with Some _ => Done (tt, SMem (<[l := v]> (hdrs m)) (nodes m)) | None => Undef end.
Definition rd_node (a : ptr) : M smem (Z * ptr) :=
  fun m => match a with
           | Some p => match nodes m !! p with Some v => Done (v, m) | None => Undef end
           | None => Undef
           end.
Definition wr_node (a : ptr) (v : Z * ptr) : M smem unit :=
  fun m => match a with
           | Some p => match nodes m !! p with
                       | Some _ => Done (tt, SMem (hdrs m) (<[p := v]> (nodes m)))
                       | None => Undef
                       end
           | None => Undef
           end.
Definition free_node (p : positive) : M smem unit :=
  fun m => match nodes m !! p with Some _ => Done (tt, SMem (hdrs m) (delete p (nodes m))) | None => Undef end.
Definition free_hdr (l : positive) : M smem unit :=
  fun m => match hdrs m !! l with Some _ => Done (tt, SMem (delete l (hdrs m)) (nodes m)) | None => Undef end.
(** malloc of a node / list block: the returned address was not allocated. *)
Definition new_node (p : positive) (v : Z * ptr) : M smem unit :=
  fun m => Done (tt, SMem (hdrs m) (<[p := v]> (nodes m))).
Definition new_hdr (p : positive) (v : ptr * ptr) : M smem unit :=
  fun m => Done (tt, SMem (<[p := v]> (hdrs m)) (nodes m)).

(** singlylinkedlist.c:27-41 singlylinkedlist_create *)
Definition sl_create (alloc : ptr) : M smem ptr :=
  match alloc with
  | Some p => new_hdr p (None, None) ;;; ret (Some p)
  | None => ret None
  end.

(** singlylinkedlist.c:49-57 the loop of singlylinkedlist_destroy: pops and frees the head until it is NULL. *)
Fixpoint destroy_loop (fuel : nat) (l : positive) : M smem unit :=
  match fuel with
  | O => nofuel
  | S fuel =>
    let* (hd, tl) := rd_hdr l in
    match hd with
    | None => ret tt
    | Some cur =>
      let* (_, nx) := rd_node (Some cur) in
      wr_hdr l (nx, tl) ;;; free_node cur ;;; destroy_loop fuel l
    end
  end.
(** singlylinkedlist.c:43-60 singlylinkedlist_destroy *)
Definition sl_destroy (fuel : nat) (list : ptr) : M smem unit :=
  match list with
  | None => ret tt
  | Some l => destroy_loop fuel l ;;; free_hdr l
  end.

(** singlylinkedlist.c:62-103 singlylinkedlist_add *)
Definition sl_add (alloc : ptr) (list : ptr) (item : Z) : M smem ptr :=
  match list with
  | None => ret None
  | Some l =>
    if Z.eq_dec item 0 then ret None
    else
      match alloc with
      | None => ret None
      | Some n =>
        new_node n (item, None) ;;;
        let* (hd, tl) := rd_hdr l in
        match hd with
        | None => wr_hdr l (Some n, Some n) ;;; ret (Some n)
        | Some _ =>
          let* (titem, _) := rd_node tl in
          wr_node tl (titem, Some n) ;;; wr_hdr l (hd, Some n) ;;; ret (Some n)
        end
      end
  end.

(** The unlinking step shared by singlylinkedlist_remove (125-146) and singlylinkedlist_remove_if (296-314):
    relink the predecessor (or the head), then move the tail back when the last item goes away. The two
    copies of the code are identical except for variable names. *)
Definition unlink (l : positive) (prev : ptr) (cur : positive) (nx : ptr) : M smem unit :=
  match prev with
  | Some _ =>
    let* (pitem, _) := rd_node prev in wr_node prev (pitem, nx)
  | None =>
    let* (_, tl) := rd_hdr l in wr_hdr l (nx, tl)
  end ;;;
  let* (hd, tl) := rd_hdr l in
  if decide (Some cur = tl) then wr_hdr l (hd, prev) else ret tt.

(** singlylinkedlist.c:121-153 the loop of singlylinkedlist_remove *)
Fixpoint remove_loop (fuel : nat) (l item : positive) (prev cur : ptr) : M smem bool :=
  match fuel with
  | O => nofuel
  | S fuel =>
    match cur with
    | None => ret false
    | Some c =>
      if decide (c = item) then
        let* (_, nx) := rd_node cur in
        unlink l prev c nx ;;; free_node c ;;; ret true
      else
        let* (_, nx) := rd_node cur in remove_loop fuel l item cur nx
    end
  end.
(** singlylinkedlist.c:105-162 singlylinkedlist_remove; true is the return value 0. *)
Definition sl_remove (fuel : nat) (list item : ptr) : M smem bool :=
  match list, item with
  | Some l, Some i =>
    let* (hd, _) := rd_hdr l in remove_loop fuel l i None hd
  | _, _ => ret false
  end.

(** singlylinkedlist.c:164-184 singlylinkedlist_get_head_item *)
Definition sl_get_head_item (list : ptr) : M smem ptr :=
  match list with
  | None => ret None
  | Some l => let* (hd, _) := rd_hdr l in ret hd
  end.
(** singlylinkedlist.c:186-204 singlylinkedlist_get_next_item *)
Definition sl_get_next_item (item : ptr) : M smem ptr :=
  match item with
  | None => ret None
  | Some _ => let* (_, nx) := rd_node item in ret nx
  end.
(** singlylinkedlist.c:206-223 singlylinkedlist_item_get_value *)
Definition sl_item_get_value (item : ptr) : M smem Z :=
  match item with
  | None => ret 0%Z
  | Some _ => let* (v, _) := rd_node item in ret v
  end.

Section callbacks.
  Context {U : Type}.

  (** singlylinkedlist.c:243-258 the loop of singlylinkedlist_find. The match function receives the item handle;
      all it can do with it is read its value, so it is modelled as a function of the handle and the value. *)
  Fixpoint find_loop (fuel : nat) (f : positive -> Z -> U -> bool * U) (cur : ptr) (u : U) : M smem (ptr * U) :=
    match fuel with
    | O => nofuel
    | S fuel =>
      match cur with
      | None => ret (None, u)
      | Some c =>
        let* (v, nx) := rd_node cur in
        let '(b, u) := f c v u in
        if (b : bool) then ret (cur, u) else find_loop fuel f nx u
      end
    end.
  (** singlylinkedlist.c:225-268 singlylinkedlist_find *)
  Definition sl_find (fuel : nat) (list : ptr) (f : option (positive -> Z -> U -> bool * U)) (u : U) : M smem (ptr * U) :=
    match list, f with
    | Some l, Some f => let* (hd, _) := rd_hdr l in find_loop fuel f hd u
    | _, _ => ret (None, u)
    end.

  (** singlylinkedlist.c:286-331 the loop of singlylinkedlist_remove_if. The condition function returns whether
      to remove the item and what it left in continue_processing (initialised to false by the loop). *)
  Fixpoint remove_if_loop (fuel : nat) (l : positive) (f : Z -> U -> bool * bool * U) (prev cur : ptr) (u : U) : M smem U :=
    match fuel with
    | O => nofuel
    | S fuel =>
      match cur with
      | None => ret u
      | Some c =>
        let* (v, nx) := rd_node cur in
        let '(rem, cont, u) := f v u in
        if (rem : bool) then
          unlink l prev c nx ;;; free_node c ;;;
          (if (cont : bool) then remove_if_loop fuel l f prev nx u else ret u)
        else
          if cont then remove_if_loop fuel l f cur nx u else ret u
      end
    end.
  (** singlylinkedlist.c:270-334 singlylinkedlist_remove_if; true is the return value 0. *)
  Definition sl_remove_if (fuel : nat) (list : ptr) (f : option (Z -> U -> bool * bool * U)) (u : U) : M smem (bool * U) :=
    match list, f with
    | Some l, Some f =>
      let* (hd, _) := rd_hdr l in
      let* u := remove_if_loop fuel l f None hd u in ret (true, u)
    | _, _ => ret (false, u)
    end.

  (** singlylinkedlist.c:353-369 the loop of singlylinkedlist_foreach. The action returns what it left in
      continue_processing. *)
  Fixpoint foreach_loop (fuel : nat) (f : Z -> U -> bool * U) (cur : ptr) (u : U) : M smem U :=
    match fuel with
    | O => nofuel
    | S fuel =>
      match cur with
      | None => ret u
      | Some _ =>
        let* (v, _) := rd_node cur in
        let '(cont, u) := f v u in
        if (cont : bool) then let* (_, nx) := rd_node cur in foreach_loop fuel f nx u else ret u
      end
    end.
  (** singlylinkedlist.c:336-373 singlylinkedlist_foreach *)
  Definition sl_foreach (fuel : nat) (list : ptr) (f : option (Z -> U -> bool * U)) (u : U) : M smem (bool * U) :=
    match list, f with
    | Some l, Some f =>
      let* (hd, _) := rd_hdr l in
      let* u := foreach_loop fuel f hd u in ret (true, u)
    | _, _ => ret (false, u)
    end.
End callbacks.

(** singlylinkedlist.c:375-415 singlylinkedlist_add_head *)
Definition sl_add_head (alloc : ptr) (list : ptr) (item : Z) : M smem ptr :=
  match list with
  | None => ret None
  | Some l =>
    match alloc with
    | None => ret None
    | Some n =>
      let* (hd, tl) := rd_hdr l in
      match hd with
      | None => new_node n (item, None) ;;; wr_hdr l (Some n, Some n) ;;; ret (Some n)
      | Some _ => new_node n (item, hd) ;;; wr_hdr l (Some n, tl) ;;; ret (Some n)
      end
    end
  end.
