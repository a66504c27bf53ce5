(** What constbuffer_array promises to callers in several threads: what each call needs the caller to hold, what it answers, and what the caller holds then. *)
From Verif Require Import Common Block CMem Prog CbcModel.
Local Open Scope Z_scope.

(** A buffer with its content; an array, or NULL, with the buffers in it. Neither ever changes. *)
Notation buf := (positive * bytes)%type.
Notation arr := (option (positive * list buf)).
(** A reference to a buffer; a reference to an array; a block from malloc with handles in it (whose references go with the block) and some more room *)
Inductive held := Buf (b : positive) (c : bytes) | Arr (a : positive) (l : list buf) | Blk (k : positive) (l : list buf) (spare : nat).
Definition to_buf (x : buf) : held := Buf x.1 x.2.
Definition len {A} (l : list A) : Z := Z.of_nat (length l).

(** [from]: references that the caller holds throughout the call, because of which it may mention buffers and arrays it does not hold a reference of its own to *)
Inductive op :=
(** CONSTBUFFER_Create, CONSTBUFFER_IncRef, CONSTBUFFER_DecRef, CONSTBUFFER_GetContent *)
| Buffer (l : bytes) | Inc (b : buf) (from : list held) | Dec (b : buf) | Read (b : buf) (from : list held)
(** malloc of a block, which is filled with handles; free of a block *)
| Alloc (l : list buf) (spare : nat) | Free (k : positive) (l : list buf) (spare : nat)
(** the functions of constbuffer_array *)
| Create (l : option (list buf)) (n : Z) (from : list held) | Empty | Move (k : option (positive * list buf * nat)) (n : Z) | View (a : arr) (i n : Z)
| Slice (a : arr) (i n skip keep : Z) (* and the caller looks at the result *) | Concat (l : option (list arr)) (n : Z) (from : list held)
| AddFront (a : arr) (b : option buf) (from : list held) | AddBack (a : arr) (b : option buf) (from : list held) | RemoveFront (a : arr) (out : bool) | RemoveBack (a : arr) (out : bool)
| Count (a : arr) (out : bool) | Get (a : arr) (i : Z) | Content (a : arr) (i : Z) | IncArr (a : arr) | DecArr (a : arr)
| Size (a : arr) (out : bool) | Handles (a : arr) | NoEmpty (a : arr) | Same (a a' : arr) (from : list held).
Inductive res := RUnit | RHandle (r : ptr) | RPair (r : option (positive * positive)) | RNum (r : option Z) | RBytes (r : option bytes) | RList (r : option (list positive)) | RArr (r : arr) | RBool (b : bool).

(** A reference among [from] keeps this buffer, this array alive. *)
Definition reaches (from : list held) (x : buf) : Prop := to_buf x ∈ from \/ exists a l, Arr a l ∈ from /\ x ∈ l.
Definition covers (from : list held) (a : arr) : Prop := match a with None => True | Some (a, l) => Arr a l ∈ from end.
Definition hold_arr (a : arr) : list held := match a with None => [] | Some (a, l) => [Arr a l] end.

(** What the caller must respect *)
Definition allowed (o : op) : Prop :=
  match o with
  | Buffer l => len l <= UINT32_MAX
  | Inc b from | Read b from => reaches from b
  | Create l n from => is_u32 n /\ match l with None => True | Some l => n <= len l /\ Forall (reaches from) l end
  | Move k n => is_u32 n /\ match k with None => True | Some (_, l, _) => n = len l end
  | View a i n => is_u32 i /\ is_u32 n
  | Slice a i n skip keep => is_u32 i /\ 1 <= n <= UINT32_MAX (* a slice of no buffers: see C20_no_buffers_refuted *) /\ is_u32 skip /\ is_u32 keep
  | Concat l n from => is_u32 n /\ match l with None => True | Some l => n <= len l /\ Forall (covers from) l end
  | AddFront a b from | AddBack a b from => match b with None => True | Some b => reaches (hold_arr a ++ from) b end
  | Get a i | Content a i => is_u32 i
  | Same a a' from => covers from a /\ covers from a'
  | _ => True
  end.
(** What the caller must hold, and cannot use otherwise during the call *)
Definition uses (o : op) : list held :=
  match o with
  | Buffer _ | Empty | Move None _ => []
  | Inc _ from | Read _ from | Create _ _ from | Concat _ _ from | Same _ _ from => from
  | Dec b => [to_buf b]
  | Alloc l _ => map to_buf l
  | Free k l spare | Move (Some (k, l, spare)) _ => [Blk k l spare]
  | AddFront a _ from | AddBack a _ from => hold_arr a ++ from
  | View a _ _ | Slice a _ _ _ _ | RemoveFront a _ | RemoveBack a _ | Count a _ | Get a _ | Content a _ | IncArr a | DecArr a | Size a _ | Handles a | NoEmpty a => hold_arr a
  end.

(** The sequence of an array argument; nothing for NULL *)
Definition seq (a : arr) : list buf := match a with None => [] | Some (_, l) => l end.
Definition new_arr (r : ptr) (l : list buf) : list held := match r with None => [] | Some a => [Arr a l] end.
(** The arrays named, all of them non-NULL: their sequences, one after the other *)
Definition joined (l : option (list arr)) (n : Z) : option (list buf) := (fun ls => concat ls) <$> mapM (fmap snd) (take (Z.to_nat n) (default [] l)).
(** What the caller holds afterwards *)
Definition gives (o : op) (r : res) : list held :=
  match o, r with
  | Buffer l, RHandle (Some b) => [Buf b l]
  | Inc b from, _ => to_buf b :: from
  | Dec _, _ | DecArr _, _ => []
  | Alloc l spare, RHandle (Some k) => [Blk k l spare]
  | Free k l spare, _ => map to_buf l
  | Create l n from, RHandle r => new_arr r (take (Z.to_nat n) (default [] l)) ++ from
  | Empty, RHandle r => new_arr r []
  | Move (Some (_, l, _)) _, RHandle (Some a) => [Arr a l]
  | View a i n, RHandle r => new_arr r (take (Z.to_nat n) (drop (Z.to_nat i) (seq a))) ++ hold_arr a
  | Slice a _ _ _ _, RArr r => hold_arr r ++ hold_arr a
  | Concat l n from, RHandle r => new_arr r (default [] (joined l n)) ++ from
  | AddFront a (Some b) from, RHandle r => new_arr r (b :: seq a) ++ hold_arr a ++ from
  | AddBack a (Some b) from, RHandle r => new_arr r (seq a ++ [b]) ++ hold_arr a ++ from
  | RemoveFront a _, RPair (Some (x, _)) => match seq a with [] => [] | b :: l => [to_buf b; Arr x l] end ++ hold_arr a
  | RemoveBack a _, RPair (Some (x, _)) => match last (seq a) with None => [] | Some b => [to_buf b; Arr x (removelast (seq a))] end ++ hold_arr a
  | Get a i, RHandle (Some _) => match seq a !! Z.to_nat i with None => [] | Some b => [to_buf b] end ++ hold_arr a
  | IncArr a, _ => hold_arr a ++ hold_arr a
  | NoEmpty a, RHandle r => new_arr r (filter (fun x => x.2 <> []) (seq a)) ++ hold_arr a
  | _, _ => uses o
  end.

(** A call that gives None exactly when it is not [ok] or an allocation failed; f, f': how many allocations have failed before and after *)
Definition made {A} (r : option A) (f f' : nat) : Prop := r = None -> (f < f')%nat.
Definition makes {A} (ok : Prop) (r : option A) (f f' : nat) : Prop := (ok -> made r f f') /\ (~ ok -> r = None).
(** Slices in bytes, of the contents l: without the first [skip] bytes of the first one and with only the first [keep] bytes of the last one;
    when there is only one buffer, the [keep] bytes after its first [skip]. *)
Definition slice_ok (l : list bytes) (skip keep : Z) : Prop :=
  match l with
  | [] => True
  | [c] => skip + keep <= len c
  | c :: cs => skip <= len c /\ keep <= len (List.last cs [])
  end.
Definition slice_bytes (l : list bytes) (skip keep : Z) : list bytes :=
  match l with
  | [] => []
  | [c] => [take (Z.to_nat keep) (drop (Z.to_nat skip) c)]
  | c :: cs => drop (Z.to_nat skip) c :: removelast cs ++ [take (Z.to_nat keep) (List.last cs [])]
  end.
Definition inner {A} (l : list A) : list A := removelast (tail l).
Definition total (l : list buf) : Z := foldr Z.add 0 (map (fun x => len x.2) l).
(** What it answers *)
Definition answers (o : op) (r : res) (f f' : nat) : Prop :=
  match o, r with
  | Buffer _, RHandle r | Alloc _ _, RHandle r | Empty, RHandle r => made r f f'
  | Inc _ _, RUnit | Dec _, RUnit | Free _ _ _, RUnit | IncArr _, RUnit | DecArr _, RUnit => True
  | Read b _, RBytes r => r = Some b.2
  | Create l n _, RHandle r => makes (l <> None \/ n = 0) r f f'
  | Move k _, RHandle r => makes (k <> None) r f f'
  | View a i n, RHandle r => makes (a <> None /\ i + n <= len (seq a)) r f f'
  | Slice a i n skip keep, RArr r =>
      let part := take (Z.to_nat n) (drop (Z.to_nat i) (seq a)) in
      makes (a <> None /\ i + n <= len (seq a) /\ slice_ok (map snd part) skip keep) r f f' /\
      (forall x l, r = Some (x, l) -> map snd l = slice_bytes (map snd part) skip keep /\ map fst (inner l) = map fst (inner part))
  | Concat l n _, RHandle r => makes ((l <> None \/ n = 0) /\ exists j, joined l n = Some j /\ len j <= UINT32_MAX) r f f'
  | AddFront a b _, RHandle r | AddBack a b _, RHandle r => makes (a <> None /\ b <> None /\ len (seq a) < UINT32_MAX) r f f'
  | RemoveFront a out, RPair r => makes (out = true /\ seq a <> []) r f f' /\ (forall x b, r = Some (x, b) -> head (map fst (seq a)) = Some b)
  | RemoveBack a out, RPair r => makes (out = true /\ seq a <> []) r f f' /\ (forall x b, r = Some (x, b) -> last (map fst (seq a)) = Some b)
  | Count a out, RNum r => r = if out then (fun x => len x.2) <$> a else None
  | Get a i, RHandle r => r = fst <$> seq a !! Z.to_nat i
  | Content a i, RBytes r => r = snd <$> seq a !! Z.to_nat i
  | Size a out, RNum r => r = match a with Some (_, l) => if decide (out = true /\ total l <= UINT32_MAX) then Some (total l) else None | None => None end
  | Handles a, RList r => r = (fun x => map fst x.2) <$> a
  | NoEmpty a, RHandle r => makes (a <> None) r f f'
  | Same a a' _, RBool b => b = bool_decide ((fun x => map snd x.2) <$> a = (fun x => map snd x.2) <$> a')
  | _, _ => False
  end.

(** The functions that are called *)
Section run.
Local Open Scope prog_scope.
Definition handle {A} (x : option (positive * A)) : ptr := match x with None => None | Some (h, _) => Some h end.
(** The caller reads n handles through a pointer. *)
Fixpoint read_all (p : place) (i n : nat) : code (list positive) :=
  match n with O => Ret [] | S n => let* b := act (read_place p i) in let* l := read_all p (S i) n in Ret (b :: l) end.
(** The caller looks at an array: its handles and their contents. *)
Fixpoint look (a : positive) (i n : nat) : code (list buf) :=
  match n with O => Ret [] | S n => let* b := read_buffer a i in let* c := act (content_of b) in let* l := look a (S i) n in Ret ((b, c) :: l) end.
Definition run (o : op) : code res :=
  match o with
  | Buffer l => let* r := CONSTBUFFER_Create l in Ret (RHandle r)
  | Inc b _ => inc b.1 ;;; Ret RUnit
  | Dec b => CONSTBUFFER_DecRef b.1 ;;; Ret RUnit
  | Read b _ => let* c := act (content_of b.1) in Ret (RBytes (Some c))
  | Alloc l spare => let* r := act (new_obj (OCells (map (fun x => Some x.1) l ++ replicate spare None))) in Ret (RHandle r)
  | Free k _ _ => act (free_obj k) ;;; Ret RUnit
  | Create l n _ => let* r := constbuffer_array_create (map fst <$> l) n in Ret (RHandle r)
  | Empty => let* r := constbuffer_array_create_empty in Ret (RHandle r)
  | Move k n => let* r := constbuffer_array_create_with_move_buffers (match k with None => None | Some (k, _, _) => Some k end) n in Ret (RHandle r)
  | View a i n => let* r := constbuffer_array_create_from_buffer_index_and_count (handle a) i n in Ret (RHandle r)
  | Slice a i n skip keep =>
      let* r := constbuffer_array_create_from_buffer_offset_and_count (handle a) i n skip keep in
      match r with
      | None => Ret (RArr None)
      | Some x => let* n := constbuffer_array_get_buffer_count (Some x) true in let* l := look x 0 (Z.to_nat (default 0 n)) in Ret (RArr (Some (x, l)))
      end
  | Concat l n _ => let* r := constbuffer_array_create_from_array_array (map handle <$> l) n in Ret (RHandle r)
  | AddFront a b _ => let* r := constbuffer_array_add_front (handle a) (handle b) in Ret (RHandle r)
  | AddBack a b _ => let* r := constbuffer_array_add_back (handle a) (handle b) in Ret (RHandle r)
  | RemoveFront a out => let* r := constbuffer_array_remove_front (handle a) out in Ret (RPair r)
  | RemoveBack a out => let* r := constbuffer_array_remove_back (handle a) out in Ret (RPair r)
  | Count a out => let* r := constbuffer_array_get_buffer_count (handle a) out in Ret (RNum r)
  | Get a i => let* r := constbuffer_array_get_buffer (handle a) i in Ret (RHandle r)
  | Content a i => let* r := constbuffer_array_get_buffer_content (handle a) i in Ret (RBytes r)
  | IncArr a => constbuffer_array_inc_ref (handle a) ;;; Ret RUnit
  | DecArr a => constbuffer_array_dec_ref (handle a) ;;; Ret RUnit
  | Size a out => let* r := constbuffer_array_get_all_buffers_size (handle a) out in Ret (RNum r)
  | Handles a => let* p := constbuffer_array_get_const_buffer_handle_array (handle a) in
                 match p with
                 | None => Ret (RList None)
                 | Some p => let* n := constbuffer_array_get_buffer_count (handle a) true in let* l := read_all p 0 (Z.to_nat (default 0 n)) in Ret (RList (Some l))
                 end
  | NoEmpty a => let* r := constbuffer_array_remove_empty_buffers (handle a) in Ret (RHandle r)
  | Same a a' _ => let* b := CONSTBUFFER_ARRAY_HANDLE_contain_same (handle a) (handle a') in Ret (RBool b)
  end.
End run.
Definition lib : library cst op res held := Library run allowed uses gives.

(** The references that an object that is there holds: a buffer made from another one; an array in its own memory, in the block it owns, or to the array it is a view of; the handles in a block *)
Definition refers (o : obj) (h : positive) : Prop :=
  match o with
  | OBuf _ original _ => original = Some h
  | OArr n _ => Some h ∈ buffers_memory n \/ custom_free n = FreeView h \/ (custom_free n = FreeMoved /\ buffers n = InBlock h 0)
  | OCells l => Some h ∈ l
  end.
(** The memory, when the threads hold hs and no call is in progress: what is held is there; everything that is there is held or is referred to by something that is there; and there is nothing when nothing is held. *)
Definition accounted (hs : list held) (s : cst) : Prop :=
  (forall b c, Buf b c ∈ hs -> exists o n, objs s !! b = Some (OBuf c o n)) /\
  (forall a l, Arr a l ∈ hs -> exists x n, objs s !! a = Some (OArr x n) /\ nBuffers x = len l) /\
  (forall k l spare, Blk k l spare ∈ hs -> objs s !! k = Some (OCells (map (fun x => Some x.1) l ++ replicate spare None)) /\ forall b c, (b, c) ∈ l -> exists o n, objs s !! b = Some (OBuf c o n)) /\
  (forall h o, objs s !! h = Some o -> (exists c, Buf h c ∈ hs) \/ (exists l, Arr h l ∈ hs) \/ (exists l spare, Blk h l spare ∈ hs) \/ (exists h' o', objs s !! h' = Some o' /\ refers o' h)) /\
  (hs = [] -> mem s = ∅ /\ objs s = ∅).
