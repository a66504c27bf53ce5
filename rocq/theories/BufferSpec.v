(** What a BUFFER is to its user: nothing built yet ([None]), or a sequence of bytes ([Some l]; bytes that were allocated but never
    written are [None] in l). And the calls a user can make, with their results. *)
From Verif Require Import Common CMem BufferModel.
Local Open Scope cmonad_scope.

Notation content := (option (list (option Z))).
Notation buffers := (gmap positive (option (list (option Z)))).

Inductive op :=
| New | Create (source : option bytes) (n : nat) | CreateWithSize (n : nat) | Delete (h : ptr)
| Build (h : ptr) (source : option bytes) (n : nat) | AppendBuild (h : ptr) (source : option bytes) (n : nat)
| PreBuild (h : ptr) (n : nat) | Content (h : ptr) (out_ok : bool) | Unbuild (h : ptr) | Enlarge (h : ptr) (n : nat)
| Shrink (h : ptr) (n : nat) (from_end : bool) | Size (h : ptr) (out_ok : bool) | Append (h1 h2 : ptr) | Prepend (h1 h2 : ptr)
| Fill (h : ptr) (c : Z) | UChar (h : ptr) | Length (h : ptr) | Clone (h : ptr).

(** What the caller sees: a handle, an int (0 or not), nothing, the bytes behind a returned pointer (None for a NULL pointer)
    or failure, a size or failure. *)
Inductive res :=
| RHandle (h : ptr) | RInt (z : Z) | RUnit | RBytes (l : option content) | RSize (n : option nat).

(** Reading the bytes behind a pointer that BUFFER_content or BUFFER_u_char returned. *)
Definition deref (h : ptr) (p : ptr) : MB content :=
  match p with
  | None => ret None
  | Some _ => let* n := BUFFER_length h in let* l := load p 0 n in ret (Some l)
  end.

Definition run (o : op) : MB res :=
  match o with
  | New => let* r := BUFFER_new in ret (RHandle r)
  | Create s n => let* r := BUFFER_create s n in ret (RHandle r)
  | CreateWithSize n => let* r := BUFFER_create_with_size n in ret (RHandle r)
  | Delete h => BUFFER_delete h ;;; ret RUnit
  | Build h s n => let* r := BUFFER_build h s n in ret (RInt r)
  | AppendBuild h s n => let* r := BUFFER_append_build h s n in ret (RInt r)
  | PreBuild h n => let* r := BUFFER_pre_build h n in ret (RInt r)
  | Content h ok => let* r := BUFFER_content h ok in
      match r with None => ret (RBytes None) | Some p => let* l := deref h p in ret (RBytes (Some l)) end
  | Unbuild h => let* r := BUFFER_unbuild h in ret (RInt r)
  | Enlarge h n => let* r := BUFFER_enlarge h n in ret (RInt r)
  | Shrink h n e => let* r := BUFFER_shrink h n e in ret (RInt r)
  | Size h ok => let* r := BUFFER_size h ok in ret (RSize r)
  | Append h1 h2 => let* r := BUFFER_append h1 h2 in ret (RInt r)
  | Prepend h1 h2 => let* r := BUFFER_prepend h1 h2 in ret (RInt r)
  | Fill h c => let* r := BUFFER_fill h c in ret (RInt r)
  | UChar h => let* p := BUFFER_u_char h in let* l := deref h p in ret (RBytes (Some l))
  | Length h => let* r := BUFFER_length h in ret (RSize (Some r))
  | Clone h => let* r := BUFFER_clone h in ret (RHandle r)
  end.

(** The bytes in a buffer. *)
Definition the (c : content) : list (option Z) := default [] c.
(** A buffer cannot hold more than a size_t can say. *)
Definition fits (n : nat) : Prop := (Z.of_nat n <= UINT64_MAX)%Z.
#[export] Instance fits_dec n : Decision (fits n) := _.

(** A new handle for a buffer with these contents. *)
Definition creates (c : content) (a : buffers) (r : res) (a' : buffers) : Prop :=
  exists h, a !! h = None /\ r = RHandle (Some h) /\ a' = <[h := c]> a.
(** The contents of h become c and 0 is returned. *)
Definition becomes (h : positive) (c : content) (a : buffers) (r : res) (a' : buffers) : Prop := r = RInt 0 /\ a' = <[h := c]> a.
(** r is returned and nothing changes. *)
Definition answers (x : res) (a : buffers) (r : res) (a' : buffers) : Prop := r = x /\ a' = a.

(** The effect of each call when no allocation fails: [a] and [a'] are the contents of all the live buffers before and after. *)
Definition effect (o : op) (a : buffers) (r : res) (a' : buffers) : Prop :=
  let on (h : ptr) (failure : res) (k : positive -> content -> Prop) : Prop :=
    match h with
    | None => answers failure a r a'
    | Some h => exists c, a !! h = Some c /\ k h c
    end in
  let failed := answers (RInt 1) a r a' in
  match o with
  | New => creates None a r a'
  | Create None n => answers (RHandle None) a r a'
  | Create (Some s) n => creates (Some (Some <$> take n s)) a r a'
  | CreateWithSize 0 => creates None a r a'
  | CreateWithSize n => creates (Some (replicate n None)) a r a'
  | Delete None => answers RUnit a r a'
  | Delete (Some h) => r = RUnit /\ a' = delete h a
  | Build h s n => on h (RInt 1) (fun h c =>
      match n, s with
      | 0, _ => becomes h None a r a'
      | _, None => failed
      | _, Some s => becomes h (Some (Some <$> take n s)) a r a'
      end)
  | AppendBuild h s n => on h (RInt 1) (fun h c =>
      match n, s with
      | 0, _ | _, None => failed
      | _, Some s => if decide (fits (length (the c) + n)) then becomes h (Some (the c ++ (Some <$> take n s))) a r a' else failed
      end)
  | PreBuild h n => on h (RInt 1) (fun h c =>
      match n, c with
      | 0, _ | _, Some _ => failed
      | _, None => becomes h (Some (replicate n None)) a r a'
      end)
  | Content h ok => on h (RBytes None) (fun h c => answers (RBytes (if ok then Some c else None)) a r a')
  | Unbuild h => on h (RInt 1) (fun h c => becomes h None a r a')
  | Enlarge h n => on h (RInt 1) (fun h c =>
      if decide (n = 0 \/ ~ fits (length (the c) + n)) then failed else becomes h (Some (the c ++ replicate n None)) a r a')
  | Shrink h n from_end => on h (RInt 1) (fun h c =>
      if decide (n = 0 \/ length (the c) < n) then failed
      else if decide (n = length (the c)) then becomes h None a r a'
      else becomes h (Some (if from_end then take (length (the c) - n) (the c) else drop n (the c))) a r a')
  | Size h ok => on h (RSize None) (fun h c => answers (RSize (if ok then Some (length (the c)) else None)) a r a')
  | Append h1 h2 => on h1 (RInt 1) (fun h1 c1 => on h2 (RInt 1) (fun h2 c2 =>
      match c1, c2 with
      | Some l1, Some l2 =>
        if decide (h1 = h2 \/ ~ fits (length l1 + length l2)) then failed else becomes h1 (Some (l1 ++ l2)) a r a'
      | _, _ => failed
      end))
  | Prepend h1 h2 => on h1 (RInt 1) (fun h1 c1 => on h2 (RInt 1) (fun h2 c2 =>
      match c1, c2 with
      | Some l1, Some l2 =>
        if decide (h1 = h2 \/ ~ fits (length l1 + length l2)) then failed else becomes h1 (Some (l2 ++ l1)) a r a'
      | _, _ => failed
      end))
  | Fill h x => on h (RInt 1) (fun h c => becomes h ((fun l => replicate (length l) (Some x)) <$> c) a r a')
  | UChar h => on h (RBytes (Some None)) (fun h c => answers (RBytes (Some (if decide (the c = []) then None else c))) a r a')
  | Length h => on h (RSize (Some 0)) (fun h c => answers (RSize (Some (length (the c)))) a r a')
  | Clone h => on h (RHandle None) (fun h c => creates (Some (the c)) a r a')
  end.

(** What a call answers when it fails. *)
Definition failure (o : op) : option res :=
  match o with
  | New | Create _ _ | CreateWithSize _ | Clone _ => Some (RHandle None)
  | Build _ _ _ | AppendBuild _ _ _ | PreBuild _ _ | Enlarge _ _ | Shrink _ _ _ | Append _ _ | Prepend _ _ => Some (RInt 1)
  | _ => None   (* these never allocate *)
  end.

(** The calls a user may make: handles are live or NULL, sizes fit in size_t, sources are as long as announced. *)
Definition live (a : buffers) (h : ptr) : Prop := match h with None => True | Some h => is_Some (a !! h) end.
Definition source_ok (s : option bytes) (n : nat) : Prop := match s with None => True | Some s => n <= length s end.
Definition allowed (a : buffers) (o : op) : Prop :=
  match o with
  | New => True
  | Create s n => source_ok s n /\ fits n
  | CreateWithSize n => fits n
  | Delete h | Unbuild h | Content h _ | Size h _ | Fill h _ | UChar h | Length h | Clone h => live a h
  | Build h s n | AppendBuild h s n => live a h /\ source_ok s n /\ fits n
  | PreBuild h n | Enlarge h n | Shrink h n _ => live a h /\ fits n
  | Append h1 h2 | Prepend h1 h2 => live a h1 /\ live a h2
  end.
