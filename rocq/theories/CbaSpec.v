(** What constbuffer_array does, told without its memory: buffers have a content, arrays are sequences of buffers, neither ever changes, and the user holds references. *)
From Verif Require Import Common CbaModel Tally.
Local Open Scope Z_scope.

(** data: the content of every buffer made so far. seqs: the buffers in every array made so far. mine, ours: the references the user holds to buffers and to
    arrays. mem: the blocks of memory the user holds; the references to the handles stored in them are the user's too, and are not counted in mine and ours. *)
Record abs := Abs { data : gmap nat bytes; seqs : gmap nat (list nat); mine : nat -> nat; ours : nat -> nat; mem : gmap nat (list (option cell)) }.

(** The user may mention a buffer when they hold a reference to it or to an array that contains it, an array when they hold a reference to it. *)
Definition usable (t : abs) (b : nat) : Prop := (0 < mine t b)%nat \/ exists a l, (0 < ours t a)%nat /\ seqs t !! a = Some l /\ b ∈ l.
Definition held (t : abs) (a : nat) (l : list nat) : Prop := (0 < ours t a)%nat /\ seqs t !! a = Some l.

Definition bytes_of (t : abs) (b : nat) : bytes := default [] (data t !! b).
Definition size_of (t : abs) (b : nat) : Z := Z.of_nat (length (bytes_of t b)).
Definition total (t : abs) (l : list nat) : Z := foldr Z.add 0 (map (size_of t) l).
Definition len {A} (l : list A) : Z := Z.of_nat (length l).

(** The user gets a reference to a buffer, to an array *)
Definition get_buf (b : nat) (t : abs) : abs := Abs (data t) (seqs t) (upd (mine t) b (S (mine t b))) (ours t) (mem t).
Definition put_buf (b : nat) (t : abs) : abs := Abs (data t) (seqs t) (upd (mine t) b (pred (mine t b))) (ours t) (mem t).
Definition get_arr (a : nat) (t : abs) : abs := Abs (data t) (seqs t) (mine t) (upd (ours t) a (S (ours t a))) (mem t).
Definition put_arr (a : nat) (t : abs) : abs := Abs (data t) (seqs t) (mine t) (upd (ours t) a (pred (ours t a))) (mem t).
(** The user gets a reference to the array a, which holds the buffers l: a new one, or one that has been holding them. *)
Definition gives (t : abs) (a : nat) (l : list nat) (t' : abs) : Prop :=
  (seqs t !! a = None \/ seqs t !! a = Some l) /\
  t' = Abs (data t) (<[a := l]> (seqs t)) (mine t) (upd (ours t) a (S (ours t a))) (mem t).
(** The same; the array may have new buffers in it, and holds the only reference to them. *)
Definition gives_bytes (t : abs) (a : nat) (contents : list bytes) (t' : abs) : Prop :=
  exists l d, data t ⊆ d /\ map (fun b => d !! b) l = map Some contents /\ gives (Abs d (seqs t) (mine t) (ours t) (mem t)) a l t'.

(** The handles stored in a block *)
Definition bufs_in (c : list (option cell)) : list nat := omap (fun x => match x with Some (Buf b) => Some b | _ => None end) c.
Definition arrs_in (c : list (option cell)) : list nat := omap (fun x => match x with Some (Arr a) => Some a | _ => None end) c.

(** A call that returns None exactly when [bad] or when it ran out of memory, and then changes nothing; [ok]: what it does otherwise *)
Definition answers {A} (bad nomem : Prop) (t t' : abs) (r : option A) (ok : A -> Prop) : Prop :=
  match r with None => (bad \/ nomem) /\ t' = t | Some x => ~ bad /\ ~ nomem /\ ok x end.

Inductive op :=
(** CONSTBUFFER_Create, CONSTBUFFER_IncRef, CONSTBUFFER_DecRef *)
| Buffer (l : bytes) | Inc (b : nat) | Dec (b : nat)
(** malloc of a block, filled with handles (their references move into the block) and with some more room; free of a block (the references in it move out) *)
| Alloc (l : list nat) (spare : nat) | Free (k : nat)
(** the functions of constbuffer_array *)
| Create (l : option (list nat)) (n : Z) | Empty | Move (k : option nat) (n : Z) | View (a : option nat) (i n : Z)
| Slice (a : option nat) (i n skip keep : Z) | Concat (l : option (list (option nat))) (n : Z)
| AddFront (a b : option nat) | AddBack (a b : option nat) | RemoveFront (a : option nat) (out : bool) | RemoveBack (a : option nat) (out : bool)
| Count (a : option nat) (out : bool) | Get (a : option nat) (i : Z) | Content (a : option nat) (i : Z) | IncArr (a : option nat) | DecArr (a : option nat)
| Size (a : option nat) (out : bool) | Handles (a : option nat) | NoEmpty (a : option nat) | Same (a a' : option nat).

Inductive res := RUnit | RHandle (r : option nat) | RPair (r : option (nat * nat)) | RNum (r : option Z) | RBytes (r : option bytes) | RList (r : option (list nat)) | RBool (b : bool).

(** What the user must respect when calling *)
Definition maybe_held (t : abs) (a : option nat) : Prop := match a with None => True | Some a => exists l, held t a l end.
Definition allowed (t : abs) (o : op) : Prop :=
  match o with
  | Buffer l => len l <= UINT32_MAX
  | Inc b => usable t b
  | Dec b => (0 < mine t b)%nat
  | Alloc l spare => forall b, (occ b l <= mine t b)%nat
  | Free k => is_Some (mem t !! k)
  | Create l n => is_u32 n /\ match l with None => True | Some l => n <= len l /\ Forall (usable t) l end
  | Empty => True
  | Move k n => is_u32 n /\ match k with None => True | Some k => exists l spare, mem t !! k = Some (map (fun b => Some (Buf b)) l ++ replicate spare None) /\ n = len l end
  | View a i n => is_u32 i /\ is_u32 n /\ maybe_held t a
  | Slice a i n skip keep => is_u32 i /\ 1 <= n <= UINT32_MAX (* a slice of no buffers: see C20_no_buffers_refuted *) /\ is_u32 skip /\ is_u32 keep /\ maybe_held t a
  | Concat l n => is_u32 n /\ match l with None => True | Some l => n <= len l /\ Forall (maybe_held t) l end
  | AddFront a b | AddBack a b => maybe_held t a /\ match b with None => True | Some b => usable t b end
  | Get a i | Content a i => is_u32 i /\ maybe_held t a
  | RemoveFront a _ | RemoveBack a _ | Count a _ | IncArr a | DecArr a | Size a _ | Handles a | NoEmpty a => maybe_held t a
  | Same a a' => maybe_held t a /\ maybe_held t a'
  end.

(** The sequence an array argument stands for; [what]: the claim about it *)
Definition of_array (t : abs) (a : option nat) (what : list nat -> Prop) : Prop := exists x l, a = Some x /\ seqs t !! x = Some l /\ what l.

(** Slices in bytes: the buffers l without the first [skip] bytes of the first one and with only the first [keep] bytes of the last one;
    when there is only one buffer, the [keep] bytes after its first [skip]. *)
Definition slice_ok (t : abs) (l : list nat) (skip keep : Z) : Prop :=
  match l with
  | [] => True
  | [b] => skip + keep <= size_of t b
  | b :: l => skip <= size_of t b /\ keep <= size_of t (List.last l b)
  end.
Definition slice_bytes (t : abs) (l : list nat) (skip keep : Z) : list bytes :=
  match map (bytes_of t) l with
  | [] => []
  | [c] => [take (Z.to_nat keep) (drop (Z.to_nat skip) c)]
  | c :: cs => drop (Z.to_nat skip) c :: removelast cs ++ [take (Z.to_nat keep) (List.last cs [])]
  end.

(** What a call does: from t to t', with result r. [nomem]: an allocation failed. *)
Definition effect (nomem : Prop) (t : abs) (o : op) (r : res) (t' : abs) : Prop :=
  match o, r with
  | Buffer l, RHandle r => answers False nomem t t' r (fun b => data t !! b = None /\ t' = Abs (<[b := l]> (data t)) (seqs t) (upd (mine t) b 1%nat) (ours t) (mem t))
  | Inc b, RUnit => t' = get_buf b t
  | Dec b, RUnit => t' = put_buf b t
  | Alloc l spare, RHandle r => answers False nomem t t' r (fun k => mem t !! k = None /\
      t' = Abs (data t) (seqs t) (fun b => (mine t b - occ b l)%nat) (ours t) (<[k := map (fun b => Some (Buf b)) l ++ replicate spare None]> (mem t)))
  | Free k, RUnit => exists c, mem t !! k = Some c /\
      t' = Abs (data t) (seqs t) (fun b => (mine t b + occ b (bufs_in c))%nat) (fun a => (ours t a + occ a (arrs_in c))%nat) (delete k (mem t))
  | Create l n, RHandle r => answers (l = None /\ n <> 0) nomem t t' r (fun a => gives t a (take (Z.to_nat n) (default [] l)) t')
  | Empty, RHandle r => answers False nomem t t' r (fun a => gives t a [] t')
  | Move k n, RHandle r => answers (k = None) nomem t t' r (fun a => exists k' l spare, k = Some k' /\ mem t !! k' = Some (map (fun b => Some (Buf b)) l ++ replicate spare None) /\ n = len l /\
      gives (Abs (data t) (seqs t) (mine t) (ours t) (delete k' (mem t))) a l t')
  | View a i n, RHandle r => answers (~ of_array t a (fun l => i + n <= len l)) nomem t t' r (fun x => of_array t a (fun l => gives t x (take (Z.to_nat n) (drop (Z.to_nat i) l)) t'))
  | Slice a i n skip keep, RHandle r =>
      answers (~ of_array t a (fun l => i + n <= len l /\ slice_ok t (take (Z.to_nat n) (drop (Z.to_nat i) l)) skip keep)) nomem t t' r
              (fun x => of_array t a (fun l => gives_bytes t x (slice_bytes t (take (Z.to_nat n) (drop (Z.to_nat i) l)) skip keep) t'))
  | Concat l n, RHandle r =>
      let arrays := take (Z.to_nat n) (default [] l) in
      let all := mapM (fun a => a ≫= (seqs t !!.)) arrays in
      answers ((l = None /\ n <> 0) \/ match all with None => True | Some ls => UINT32_MAX < len (concat ls) end) nomem t t' r (fun x => exists ls, all = Some ls /\ gives t x (concat ls) t')
  | AddFront a b, RHandle r => answers (b = None \/ ~ of_array t a (fun l => len l < UINT32_MAX)) nomem t t' r (fun x => of_array t a (fun l => exists b', b = Some b' /\ gives t x (b' :: l) t'))
  | AddBack a b, RHandle r => answers (b = None \/ ~ of_array t a (fun l => len l < UINT32_MAX)) nomem t t' r (fun x => of_array t a (fun l => exists b', b = Some b' /\ gives t x (l ++ [b']) t'))
  | RemoveFront a out, RPair r => answers (out = false \/ ~ of_array t a (fun l => l <> [])) nomem t t' r
      (fun x => of_array t a (fun l => exists l', l = x.2 :: l' /\ gives (get_buf x.2 t) x.1 l' t'))
  | RemoveBack a out, RPair r => answers (out = false \/ ~ of_array t a (fun l => l <> [])) nomem t t' r
      (fun x => of_array t a (fun l => exists l', l = l' ++ [x.2] /\ gives (get_buf x.2 t) x.1 l' t'))
  | Count a out, RNum r => answers (out = false \/ a = None) False t t' r (fun z => of_array t a (fun l => z = len l /\ t' = t))
  | Get a i, RHandle r => answers (~ of_array t a (fun l => i < len l)) False t t' r (fun b => of_array t a (fun l => l !! Z.to_nat i = Some b /\ t' = get_buf b t))
  | Content a i, RBytes r => answers (~ of_array t a (fun l => i < len l)) False t t' r (fun c => of_array t a (fun l => exists b, l !! Z.to_nat i = Some b /\ data t !! b = Some c /\ t' = t))
  | IncArr a, RUnit => t' = match a with None => t | Some x => get_arr x t end
  | DecArr a, RUnit => t' = match a with None => t | Some x => put_arr x t end
  | Size a out, RNum r => answers (out = false \/ ~ of_array t a (fun l => total t l <= UINT32_MAX)) False t t' r (fun z => of_array t a (fun l => z = total t l /\ t' = t))
  | Handles a, RList r => answers (a = None) False t t' r (fun h => of_array t a (fun l => h = l /\ t' = t))
  | NoEmpty a, RHandle r => answers (a = None) nomem t t' r (fun x => of_array t a (fun l => gives t x (filter (fun b => bytes_of t b <> []) l) t'))
  | Same a a', RBool b => t' = t /\ (b = true <-> (a = None /\ a' = None) \/ of_array t a (fun l => of_array t a' (fun l' => map (bytes_of t) l = map (bytes_of t) l')))
  | _, _ => False
  end.

(** The functions that are called *)
Local Open Scope cm.
Fixpoint read_all (p : place) (i n : nat) : M heap (list nat) :=
  match n with O => ret [] | S n => let* b := read_place p i in let* l := read_all p (S i) n in ret (b :: l) end.
Fixpoint fill_block (k i : nat) (l : list nat) : M heap unit := match l with [] => ret tt | b :: l => write_cell k i (Buf b) ;;; fill_block k (S i) l end.
Definition run (o : op) : M heap res :=
  match o with
  | Buffer l => let* r := new_buffer l in ret (RHandle r)
  | Inc b => CONSTBUFFER_IncRef b ;;; ret RUnit
  | Dec b => CONSTBUFFER_DecRef b ;;; ret RUnit
  | Alloc l spare => let* r := new_block (length l + spare) in match r with None => ret (RHandle None) | Some k => fill_block k 0 l ;;; ret (RHandle (Some k)) end
  | Free k => free_block k ;;; ret RUnit
  | Create l n => let* r := constbuffer_array_create (item <$> l) n in ret (RHandle r)
  | Empty => let* r := constbuffer_array_create_empty in ret (RHandle r)
  | Move k n => let* r := constbuffer_array_create_with_move_buffers k n in ret (RHandle r)
  | View a i n => let* r := constbuffer_array_create_from_buffer_index_and_count a i n in ret (RHandle r)
  | Slice a i n skip keep => let* r := constbuffer_array_create_from_buffer_offset_and_count a i n skip keep in ret (RHandle r)
  | Concat l n => let* r := constbuffer_array_create_from_array_array l n in ret (RHandle r)
  | AddFront a b => let* r := constbuffer_array_add_front a b in ret (RHandle r)
  | AddBack a b => let* r := constbuffer_array_add_back a b in ret (RHandle r)
  | RemoveFront a out => let* r := constbuffer_array_remove_front a out in ret (RPair r)
  | RemoveBack a out => let* r := constbuffer_array_remove_back a out in ret (RPair r)
  | Count a out => let* r := constbuffer_array_get_buffer_count a out in ret (RNum r)
  | Get a i => let* r := constbuffer_array_get_buffer a i in ret (RHandle r)
  | Content a i => let* r := constbuffer_array_get_buffer_content a i in ret (RBytes r)
  | IncArr a => constbuffer_array_inc_ref a ;;; ret RUnit
  | DecArr a => constbuffer_array_dec_ref a ;;; ret RUnit
  | Size a out => let* r := constbuffer_array_get_all_buffers_size a out in ret (RNum r)
  | Handles a => let* p := constbuffer_array_get_const_buffer_handle_array a in
                 match p with
                 | None => ret (RList None)
                 | Some p => let* n := constbuffer_array_get_buffer_count a true in let* l := read_all p 0 (Z.to_nat (default 0 n)) in ret (RList (Some l))
                 end
  | NoEmpty a => let* r := constbuffer_array_remove_empty_buffers a in ret (RHandle r)
  | Same a a' => let* b := CONSTBUFFER_ARRAY_HANDLE_contain_same a a' in ret (RBool b)
  end.

(** Nothing has been allocated; [o]: the outcomes of the allocations to come *)
Definition nothing (o : list bool) : heap := Heap (fun _ => 0%nat) (fun _ => []) ∅ ∅ 0 0 0 o 0.
Definition start : abs := Abs ∅ ∅ (fun _ => 0%nat) (fun _ => 0%nat) ∅.

(** The slots of the arrays that are still allocated: a view has none of its own *)
Definition slots (t : abs) (s : heap) (b : nat) : nat :=
  tally (fun a n => match custom_free n with FreeView _ => 0 | _ => occ b (default [] (seqs t !! a)) end)%nat (nodes s).
(** The references to a buffer that are stored in the user's blocks *)
Definition in_mem (t : abs) (b : nat) : nat := tally (fun _ c => occ b (bufs_in c)) (mem t).
