(** Model of src/doublylinkedlist.c.

    A heap maps the address of a DLIST_ENTRY to its (Flink, Blink) pair
    (struct DLIST_ENTRY_TAG in inc/c_util/doublylinkedlist.h). Reading or writing
    an address that is not mapped is undefined behaviour. *)
From Verif Require Import Common.
Local Open Scope cmonad_scope.

Notation addr := positive.
Notation dheap := (gmap positive (positive * positive)).
Notation D := (M dheap).

(** [p->Flink] as an rvalue. *)
Definition rd_flink (p : addr) : D addr := fun h =>
  match h !! p with Some (f, _) => Done (f, h) | None => Undef end.
(** [p->Blink] as an rvalue. *)
Definition rd_blink (p : addr) : D addr := fun h =>
  match h !! p with Some (_, b) => Done (b, h) | None => Undef end.
(** [p->Flink = v]. *)
Definition wr_flink (p v : addr) : D unit := fun h =>
  match h !! p with Some (_, b) => Done (tt, <[p := (v, b)]> h) | None => Undef end.
(** [p->Blink = v]. *)
Definition wr_blink (p v : addr) : D unit := fun h =>
  match h !! p with Some (f, _) => Done (tt, <[p := (f, v)]> h) | None => Undef end.

(** src/doublylinkedlist.c:11-19 (assignment chain: Blink first, then Flink). *)
Definition DList_InitializeListHead (ListHead : addr) : D unit :=
  wr_blink ListHead ListHead ;;;
  wr_flink ListHead ListHead.

(** src/doublylinkedlist.c:21-29 *)
Definition DList_IsListEmpty (ListHead : addr) : D bool :=
  let* f := rd_flink ListHead in
  ret (bool_decide (f = ListHead)).

(** src/doublylinkedlist.c:31-48 *)
Definition DList_RemoveEntryList (Entry : addr) : D bool :=
  let* Flink := rd_flink Entry in
  let* Blink := rd_blink Entry in
  wr_flink Blink Flink ;;;
  wr_blink Flink Blink ;;;
  ret (bool_decide (Flink = Blink)).

(** src/doublylinkedlist.c:50-66 *)
Definition DList_RemoveHeadList (ListHead : addr) : D addr :=
  let* Entry := rd_flink ListHead in
  let* Flink := rd_flink Entry in
  wr_flink ListHead Flink ;;;
  wr_blink Flink ListHead ;;;
  ret Entry.

(** src/doublylinkedlist.c:68-84 *)
Definition DList_RemoveTailList (ListHead : addr) : D addr :=
  let* Entry := rd_blink ListHead in
  let* Blink := rd_blink Entry in
  wr_blink ListHead Blink ;;;
  wr_flink Blink ListHead ;;;
  ret Entry.

(** src/doublylinkedlist.c:88-103 *)
Definition DList_InsertTailList (ListHead Entry : addr) : D unit :=
  let* Blink := rd_blink ListHead in
  wr_flink Entry ListHead ;;;
  wr_blink Entry Blink ;;;
  wr_flink Blink Entry ;;;
  wr_blink ListHead Entry.

(** src/doublylinkedlist.c:106-120 *)
Definition DList_AppendTailList (ListHead ListToAppend : addr) : D unit :=
  let* ListEnd := rd_blink ListHead in
  let* b := rd_blink ListHead in
  wr_flink b ListToAppend ;;;
  let* lb := rd_blink ListToAppend in
  wr_blink ListHead lb ;;;
  let* lb' := rd_blink ListToAppend in
  wr_flink lb' ListHead ;;;
  wr_blink ListToAppend ListEnd.

(** src/doublylinkedlist.c:124-130 *)
Definition DList_InsertHeadList (listHead entry : addr) : D unit :=
  wr_blink entry listHead ;;;
  let* f := rd_flink listHead in
  wr_flink entry f ;;;
  let* f' := rd_flink listHead in
  wr_blink f' entry ;;;
  wr_flink listHead entry.

(** src/doublylinkedlist.c:132-179.

    The user's action is an arbitrary program over the heap and a user state [U]
    (actionContext); it returns whether it succeeded (return value 0) and the value it
    leaves in continueProcessing. [fuel] bounds the number of loop iterations. The result is
    whether DList_ForEach returned 0.
    The NULL-argument branch (lines 137-145) is [DList_ForEach_entry] below. *)
Section ForEach.
Context {U : Type}.
Variable action : addr -> M (dheap * U) (bool * bool).  (* (returned 0, continueProcessing) *)

Definition liftD {A} (m : D A) : M (dheap * U) A := fun '(h, u) =>
  match m h with Done (a, h') => Done (a, (h', u)) | Undef => Undef | NoFuel => NoFuel end.

Fixpoint ForEach_loop (fuel : nat) (listHead entry : addr) : M (dheap * U) bool :=
  match fuel with
  | O => nofuel
  | S fuel' =>
      if bool_decide (entry = listHead) then ret true            (* 173-175: result = 0 *)
      else
        let* next := liftD (rd_flink entry) in                           (* 151 *)
        let* rc := action entry in                                       (* 154 *)
        if negb rc.1 then ret false                               (* 158: MU_FAILURE *)
        else if negb rc.2 then ret true                           (* 164-168 *)
        else ForEach_loop fuel' listHead next                            (* 172 *)
  end.

Definition DList_ForEach (fuel : nat) (listHead : addr) : M (dheap * U) bool :=
  let* entry := liftD (rd_flink listHead) in                             (* 148 *)
  ForEach_loop fuel listHead entry.
End ForEach.

(** src/doublylinkedlist.c:137-145: NULL listHead or NULL action fails. *)
Definition DList_ForEach_entry {U} (listHead : option addr)
    (action : option (addr -> M (dheap * U) (bool * bool))) (fuel : nat) : M (dheap * U) bool :=
  match listHead, action with
  | Some l, Some f => DList_ForEach f fuel l
  | _, _ => ret false
  end.
