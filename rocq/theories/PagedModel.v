(** Model of inc/c_util/paged_sparse_array_ll.h over the heap of CMem. An element of type T is represented by an integer; [szT] is sizeof(T), [hdr] the size of the
    fields before a flexible array. A page is one struct: its elements, the bytes of the bitmap that follows them in the same allocation, and its count; None: not yet
    written. A pointer to an element is the page and the index in it. The reference count of the handle (THANDLE, in c_pal) is not modelled: DISPOSE is what happens
    when the last reference goes. The user's item_dispose_func is modelled by the elements it is called with: where they are and what they hold. *)
From Verif Require Import Common Block CMem.
Local Open Scope Z_scope.
Local Open Scope cmonad_scope.

(** paged_sparse_array_ll.h:60-64 *)
Record page := Page { items : list (option Z); bitmap : list (option Z); allocated_count : option Z }.
(** paged_sparse_array_ll.h:67-74; has_dispose: item_dispose_func is not NULL. *)
Record pdata := PData { max_size : Z; page_size : Z; page_count : Z; has_dispose : bool; pages : list (option ptr) }.
Inductive obj := OPaged (d : pdata) | OPage (p : page).
Notation MM := (M (st obj)).
Notation address := (positive * Z)%type.
Record cell := Cell { addr : address; value : option Z }.

Definition get_p (h : positive) : MM pdata := let* o := get_obj h in match o with OPaged d => ret d | _ => undef end.
Definition set_p (h : positive) (d : pdata) : MM unit := get_p h ;;; set_obj h (OPaged d).
Definition free_p (h : positive) : MM unit := get_p h ;;; free_obj h.
Definition get_page (q : positive) : MM page := let* o := get_obj q in match o with OPage p => ret p | _ => undef end.
Definition set_page (q : positive) (p : page) : MM unit := get_page q ;;; set_obj q (OPage p).
Definition free_page (q : positive) : MM unit := get_page q ;;; free_obj q.
(** array->pages[k], and = p *)
Definition slot_get (h : positive) (k : Z) : MM ptr := let* d := get_p h in match pages d !! Z.to_nat k with Some (Some p) => ret p | _ => undef end.
Definition slot_set (h : positive) (k : Z) (p : ptr) : MM unit :=
  let* d := get_p h in
  if decide (Z.to_nat k < length (pages d))%nat then set_p h (PData (max_size d) (page_size d) (page_count d) (has_dispose d) (<[Z.to_nat k := Some p]> (pages d))) else undef.

(** paged_sparse_array_ll.h:123 *)
Definition BITMAP_SIZE (page_size : Z) : Z := u64 (page_size + 7) / 8.
(** Conversion to uint8_t. *)
Definition u8 (z : Z) : Z := z mod 256.
(** bitmap[i], and = b *)
Definition byte_get (q : positive) (i : Z) : MM Z := let* p := get_page q in match bitmap p !! Z.to_nat i with Some (Some b) => ret b | _ => undef end.
Definition byte_set (q : positive) (i b : Z) : MM unit :=
  let* p := get_page q in
  if decide (Z.to_nat i < length (bitmap p))%nat then set_page q (Page (items p) (<[Z.to_nat i := Some (u8 b)]> (bitmap p)) (allocated_count p)) else undef.
(** paged_sparse_array_ll.h:129-130 *)
Definition IS_ALLOCATED (q : positive) (j : Z) : MM bool := let* b := byte_get q (j / 8) in ret (negb (Z.land b (Z.shiftl 1 (j mod 8)) =? 0)).
(** paged_sparse_array_ll.h:133-134 *)
Definition SET_ALLOCATED (q : positive) (j : Z) : MM unit := let* b := byte_get q (j / 8) in byte_set q (j / 8) (Z.lor b (Z.shiftl 1 (j mod 8))).
(** paged_sparse_array_ll.h:137-138 *)
Definition CLEAR_ALLOCATED (q : positive) (j : Z) : MM unit := let* b := byte_get q (j / 8) in byte_set q (j / 8) (Z.land b (Z.lnot (Z.shiftl 1 (j mod 8)))).
(** page->allocated_count, and = n *)
Definition count_get (q : positive) : MM Z := let* p := get_page q in match allocated_count p with Some n => ret n | None => undef end.
Definition count_set (q : positive) (n : Z) : MM unit := let* p := get_page q in set_page q (Page (items p) (bitmap p) (Some (u64 n))).
(** What item_dispose_func(&page->items[j]) is called with. *)
Definition item_at (q : positive) (j : Z) : MM cell := let* p := get_page q in match items p !! Z.to_nat j with Some v => ret (Cell (q, j) v) | None => undef end.

(** paged_sparse_array_ll.h:161-167: the elements disposed of, for j = j .. page_size - 1 *)
Fixpoint dispose_items (q : positive) (j : Z) (n : nat) : MM (list cell) :=
  match n with
  | O => ret []
  | S n =>
    let* b := IS_ALLOCATED q j in
    let* l := (if b then let* c := item_at q j in ret [c] else ret []) in
    let* l' := dispose_items q (j + 1) n in ret (l ++ l')
  end.
(** paged_sparse_array_ll.h:153-172: pages i .. page_count - 1 *)
Fixpoint dispose_pages (h : positive) (i : Z) (n : nat) : MM (list cell) :=
  match n with
  | O => ret []
  | S n =>
    let* d := get_p h in
    let* p := slot_get h i in
    let* l := (match p with
               | None => ret []
               | Some q => let* l := (if has_dispose d then dispose_items q 0 (Z.to_nat (page_size d)) else ret []) in free_page q ;;; ret l
               end) in
    let* l' := dispose_pages h (i + 1) n in ret (l ++ l')
  end.
(** paged_sparse_array_ll.h:141-174, then the struct itself is freed (THANDLE). *)
Definition PAGED_SPARSE_ARRAY_DISPOSE (paged_sparse_array : ptr) : MM (list cell) :=
  match paged_sparse_array with
  | None => ret []
  | Some h => let* d := get_p h in let* l := dispose_pages h 0 (Z.to_nat (page_count d)) in free_p h ;;; ret l
  end.

(** Size of a struct with a flexible array: None if it overflows size_t (c_pal). *)
Definition size_flex (hdr n sz : Z) : option Z := if decide (hdr + n * sz <= UINT64_MAX) then Some (hdr + n * sz) else None.
(** paged_sparse_array_ll.h:210-213 *)
Fixpoint clear_pages (h : positive) (i : Z) (n : nat) : MM unit :=
  match n with O => ret tt | S n => slot_set h i None ;;; clear_pages h (i + 1) n end.
(** paged_sparse_array_ll.h:176-221 *)
Definition PAGED_SPARSE_ARRAY_CREATE (hdr max page : Z) (disp : bool) : MM ptr :=
  if decide (max = 0 \/ page = 0 \/ u64 (UINT64_MAX - u64 (page - 1)) < max) then ret None
  else
    let page_count := u64 (u64 (max + page) - 1) / page in
    match size_flex hdr page_count 8 with
    | None => ret None
    | Some _ =>
      let* result := new_obj (OPaged (PData 0 0 0 false (replicate (Z.to_nat page_count) None))) in
      match result with
      | None => ret None
      | Some h =>
        let* d := get_p h in
        set_p h (PData max page page_count disp (pages d)) ;;;
        clear_pages h 0 (Z.to_nat page_count) ;;;
        ret result
      end
    end.

(** paged_sparse_array_ll.h:226-246. The elements and the bitmap must lie inside of what was allocated, else the memset is undefined behaviour. *)
Definition ALLOCATE_PAGE (hdr szT page_size : Z) : MM ptr :=
  let bitmap_size := BITMAP_SIZE page_size in
  let items_and_bitmap_size := u64 (u64 (page_size * szT) + bitmap_size) in
  match size_flex hdr items_and_bitmap_size 1 with
  | None => ret None
  | Some _ =>
    let* page := new_obj (OPage (Page (replicate (Z.to_nat page_size) None) (replicate (Z.to_nat bitmap_size) None) None)) in
    match page with
    | None => ret None
    | Some q =>
      if decide (items_and_bitmap_size < page_size * szT + bitmap_size) then undef
      else
        let* p := get_page q in
        set_page q (Page (items p) (replicate (Z.to_nat bitmap_size) (Some 0)) (allocated_count p)) ;;;
        count_set q 0 ;;;
        ret page
    end
  end.

(** paged_sparse_array_ll.h:26-30, 35-38 *)
Inductive allocate_result := ALLOCATE_OK | ALLOCATE_INVALID_ARGS | ALLOCATE_ALREADY_ALLOCATED | ALLOCATE_ERROR.
Inductive get_result := GET_OK | GET_INVALID_ARGS | GET_NOT_ALLOCATED.

(** paged_sparse_array_ll.h:286-301 *)
Definition allocate_item (q : positive) (index_in_page : Z) : MM (allocate_result * option address) :=
  let* b := IS_ALLOCATED q index_in_page in
  if (b : bool) then ret (ALLOCATE_ALREADY_ALLOCATED, None)
  else
    SET_ALLOCATED q index_in_page ;;;
    let* n := count_get q in
    count_set q (n + 1) ;;;
    ret (ALLOCATE_OK, Some (q, index_in_page)).
(** paged_sparse_array_ll.h:248-305; [out_ok]: allocated_ptr is not NULL. The second part of the answer is *allocated_ptr, if written. *)
Definition PAGED_SPARSE_ARRAY_ALLOCATE (hdr szT : Z) (paged_sparse_array : ptr) (index : Z) (out_ok : bool) : MM (allocate_result * option address) :=
  match paged_sparse_array with
  | None => ret (ALLOCATE_INVALID_ARGS, None)
  | Some h =>
    if negb out_ok then ret (ALLOCATE_INVALID_ARGS, None)
    else
      let* d := get_p h in
      if max_size d <=? index then ret (ALLOCATE_INVALID_ARGS, None)
      else
        let page_index := index / page_size d in
        let* p := slot_get h page_index in
        let* p := (match p with
                   | Some _ => ret p
                   | None => let* p := ALLOCATE_PAGE hdr szT (page_size d) in slot_set h page_index p ;;; ret p
                   end) in
        match p with
        | None => ret (ALLOCATE_ERROR, None)
        | Some q => allocate_item q (index mod page_size d)
        end
  end.

(** paged_sparse_array_ll.h:307-360: the elements disposed of. *)
Definition PAGED_SPARSE_ARRAY_RELEASE (paged_sparse_array : ptr) (index : Z) : MM (list cell) :=
  match paged_sparse_array with
  | None => ret []
  | Some h =>
    let* d := get_p h in
    if max_size d <=? index then ret []
    else
      let page_index := index / page_size d in
      let* p := slot_get h page_index in
      match p with
      | None => ret []
      | Some q =>
        let index_in_page := index mod page_size d in
        let* b := IS_ALLOCATED q index_in_page in
        if negb b then ret []
        else
          let* l := (if has_dispose d then let* c := item_at q index_in_page in ret [c] else ret []) in
          CLEAR_ALLOCATED q index_in_page ;;;
          (let* n := count_get q in count_set q (n - 1)) ;;;
          let* n := count_get q in
          (if decide (n = 0) then free_page q ;;; slot_set h page_index None else ret tt) ;;;
          ret l
      end
  end.

(** paged_sparse_array_ll.h:362-404 *)
Definition PAGED_SPARSE_ARRAY_GET (paged_sparse_array : ptr) (index : Z) (out_ok : bool) : MM (get_result * option address) :=
  match paged_sparse_array with
  | None => ret (GET_INVALID_ARGS, None)
  | Some h =>
    if negb out_ok then ret (GET_INVALID_ARGS, None)
    else
      let* d := get_p h in
      if max_size d <=? index then ret (GET_INVALID_ARGS, None)
      else
        let page_index := index / page_size d in
        let* p := slot_get h page_index in
        match p with
        | None => ret (GET_NOT_ALLOCATED, None)
        | Some q =>
          let index_in_page := index mod page_size d in
          let* b := IS_ALLOCATED q index_in_page in
          if negb b then ret (GET_NOT_ALLOCATED, None) else ret (GET_OK, Some (q, index_in_page))
        end
  end.

(** The user's accesses through a pointer that ALLOCATE or GET gave. *)
Definition load (p : address) : MM Z := let* c := item_at p.1 p.2 in match value c with Some v => ret v | None => undef end.
Definition store (p : address) (v : Z) : MM unit :=
  let* pg := get_page p.1 in
  if decide (Z.to_nat p.2 < length (items pg))%nat then set_page p.1 (Page (<[Z.to_nat p.2 := Some v]> (items pg)) (bitmap pg) (allocated_count pg)) else undef.
