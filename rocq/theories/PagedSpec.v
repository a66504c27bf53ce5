(** What a PAGED_SPARSE_ARRAY is to its user: a partial map from indices below max_size to cells, each with an address and a content. The calls and their effect. *)
From Verif Require Import Common Block CMem PagedModel.
Local Open Scope Z_scope.
Local Open Scope cmonad_scope.

Record paged := Paged { amax : Z; apage : Z; adispose : bool; cells : gmap Z cell }.
Notation arrays := (gmap positive paged).

(** Load and Store are the user's accesses through the pointers that ALLOCATE and GET give. *)
Inductive op := Create (max page : Z) (disp : bool) | Dispose (h : ptr) | Allocate (h : ptr) (i : Z) (out : bool) | Release (h : ptr) (i : Z) | Get (h : ptr) (i : Z) (out : bool)
| Load (p : address) | Store (p : address) (v : Z).
(** A handle; what item_dispose_func was called with, in this order; the answers of ALLOCATE and GET; the content of a cell; nothing. *)
Inductive res := RHandle (h : ptr) | RDisposed (l : list cell) | RAllocate (r : allocate_result) (p : option address) | RGet (r : get_result) (p : option address) | RVal (v : Z) | RUnit.
Definition run (hdr szT : Z) (o : op) : MM res :=
  match o with
  | Create m p d => let* h := PAGED_SPARSE_ARRAY_CREATE hdr m p d in ret (RHandle h)
  | Dispose h => let* l := PAGED_SPARSE_ARRAY_DISPOSE h in ret (RDisposed l)
  | Allocate h i out => let* x := PAGED_SPARSE_ARRAY_ALLOCATE hdr szT h i out in ret (RAllocate x.1 x.2)
  | Release h i => let* l := PAGED_SPARSE_ARRAY_RELEASE h i in ret (RDisposed l)
  | Get h i out => let* x := PAGED_SPARSE_ARRAY_GET h i out in ret (RGet x.1 x.2)
  | Load p => let* v := load p in ret (RVal v)
  | Store p v => store p v ;;; ret RUnit
  end.

Definition answers (x : res) (a : arrays) (r : res) (a' : arrays) : Prop := r = x /\ a' = a.
Definition with_cells (t : paged) (m : gmap Z cell) : paged := Paged (amax t) (apage t) (adispose t) m.
(** An empty array cannot be created, nor one whose indices do not all fit in 64 bits after rounding up to whole pages. *)
Definition bad_sizes (max page : Z) : Prop := max = 0 \/ page = 0 \/ UINT64_MAX - (page - 1) < max.
#[export] Instance bad_sizes_dec max page : Decision (bad_sizes max page) := _.
(** The cell at address p. *)
Definition cell_at (a : arrays) (p : address) (h : positive) (t : paged) (i : Z) (c : cell) : Prop := a !! h = Some t /\ cells t !! i = Some c /\ addr c = p.
Definition effect (o : op) (a : arrays) (r : res) (a' : arrays) : Prop :=
  let on (h : positive) (k : paged -> Prop) : Prop := exists t, a !! h = Some t /\ k t in
  match o with
  | Create m p d =>
    if decide (bad_sizes m p) then answers (RHandle None) a r a'
    else exists h, a !! h = None /\ r = RHandle (Some h) /\ a' = <[h := Paged m p d ∅]> a
  | Dispose None => answers (RDisposed []) a r a'
  | Dispose (Some h) => on h (fun t =>
      r = RDisposed (if adispose t then omap (fun i => cells t !! i) (seqZ 0 (amax t)) else []) /\ a' = delete h a)
  | Allocate (Some h) i true => on h (fun t =>
      if decide (i < amax t)
      then match cells t !! i with
           | Some _ => answers (RAllocate ALLOCATE_ALREADY_ALLOCATED None) a r a'
           | None => exists p v, r = RAllocate ALLOCATE_OK (Some p) /\ a' = <[h := with_cells t (<[i := Cell p v]> (cells t))]> a
           end
      else answers (RAllocate ALLOCATE_INVALID_ARGS None) a r a')
  | Allocate _ _ _ => answers (RAllocate ALLOCATE_INVALID_ARGS None) a r a'
  | Release None _ => answers (RDisposed []) a r a'
  | Release (Some h) i => on h (fun t =>
      match cells t !! i with
      | Some c => r = RDisposed (if adispose t then [c] else []) /\ a' = <[h := with_cells t (delete i (cells t))]> a
      | None => answers (RDisposed []) a r a'
      end)
  | Get (Some h) i true => on h (fun t =>
      if decide (i < amax t)
      then match cells t !! i with
           | Some c => answers (RGet GET_OK (Some (addr c))) a r a'
           | None => answers (RGet GET_NOT_ALLOCATED None) a r a'
           end
      else answers (RGet GET_INVALID_ARGS None) a r a')
  | Get _ _ _ => answers (RGet GET_INVALID_ARGS None) a r a'
  | Load p => exists h t i c v, cell_at a p h t i c /\ value c = Some v /\ answers (RVal v) a r a'
  | Store p v => exists h t i c, cell_at a p h t i c /\ r = RUnit /\ a' = <[h := with_cells t (<[i := Cell p (Some v)]> (cells t))]> a
  end.
(** A failing call changes nothing; only the first element of a page can fail. *)
Definition failed (o : op) (a : arrays) (r : res) (a' : arrays) : Prop :=
  match o with
  | Create _ _ _ => answers (RHandle None) a r a'
  | Allocate (Some h) i true => (exists t, a !! h = Some t /\ i < amax t /\ forall j, j / apage t = i / apage t -> cells t !! j = None) /\ answers (RAllocate ALLOCATE_ERROR None) a r a'
  | _ => False
  end.
(** The size of a page: elements, and a bit for each. *)
Definition page_bytes (szT page : Z) : Z := page * szT + (page + 7) / 8.
(** The new object would not fit in the address space. *)
Definition too_big (hdr szT : Z) (o : op) (a : arrays) : Prop :=
  match o with
  | Create m p _ => UINT64_MAX < hdr + (m + p - 1) / p * 8
  | Allocate (Some h) _ _ => exists t, a !! h = Some t /\ UINT64_MAX < hdr + page_bytes szT (apage t)
  | _ => False
  end.
(** Live handles and addresses; loads of cells that have been written. The condition on Create is one the code does not check. *)
Definition live (a : arrays) (h : ptr) : Prop := match h with None => True | Some h => is_Some (a !! h) end.
Definition allowed (szT : Z) (a : arrays) (o : op) : Prop :=
  match o with
  | Create m p _ => is_u64 m /\ is_u64 p /\ page_bytes szT p <= UINT64_MAX
  | Dispose h => live a h
  | Allocate h i _ | Release h i | Get h i _ => live a h /\ is_u64 i
  | Load p => exists h t i c v, cell_at a p h t i c /\ value c = Some v
  | Store p _ => exists h t i c, cell_at a p h t i c
  end.
(** The pages in use, and the number of heap objects: the struct and one per page in use. *)
Definition used_pages (t : paged) : gset Z := set_map (fun i => i / apage t) (dom (cells t)).
Definition objects (a : arrays) : nat := map_fold (fun _ t n => (1 + size (used_pages t) + n)%nat) 0%nat a.
