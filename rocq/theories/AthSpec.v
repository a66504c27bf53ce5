(** What copying and freeing the values of asynchronous calls does, told with the sequences and references of CbaSpec. *)
From Verif Require Import Common CbaModel CbaSpec AthModel.
Local Open Scope Z_scope.

(** The same things are held *)
Definition same (t t' : abs) : Prop := data t' = data t /\ seqs t' = seqs t /\ mem t' = mem t /\ (forall b, mine t' b = mine t b) /\ (forall a, ours t' a = ours t a).
(** The user holds one block more, k, with the given cells in it; the references to the handles in it come with it. *)
Definition gets_block (t : abs) (k : nat) (c : list cell) (t' : abs) : Prop := mem t !! k = None /\ same (Abs (data t) (seqs t) (mine t) (ours t) (<[k := map Some c]> (mem t))) t'.
(** The block is gone, with the references in it *)
Definition drops_block (t : abs) (k : nat) (t' : abs) : Prop := same (Abs (data t) (seqs t) (mine t) (ours t) (delete k (mem t))) t'.

(** The pointer points at these cells, maybe followed by other things *)
Definition points {A} (as_cell : A -> cell) (t : abs) (p : memory A) (l : list A) : Prop :=
  match p with Own l' => exists more, l' = l ++ more | Block k => exists more, mem t !! k = Some (map (fun x => Some (as_cell x)) l ++ more) end.
(** A string: characters that are not 0, then a 0 *)
Definition text (t : abs) (p : memory Z) (l : bytes) : Prop := points Byte t p (l ++ [0]) /\ 0 ∉ l.
(** n handles, each NULL or of an array the user may mention: because they hold a reference, or because the reference is in the block *)
Definition handles (t : abs) (p : memory (option nat)) (n : Z) (l : list (option nat)) : Prop :=
  points handle_cell t p l /\ n = len l /\ match p with Own _ => Forall (maybe_held t) l | Block _ => True end.

Inductive call :=
| TextCopy (dest : bool) (p : option (memory Z)) | TextFree (v : option nat)
| HandlesCopy (dest : bool) (p : option (memory (option nat))) (n : Z) | HandlesFree (v : option nat) (n : Z)
| HandleCopy (dest : bool) (h : option nat) | HandleFree (h : option nat).

(** What the user must respect: the sources are readable, what is freed is what a copy handler gave (or any block of characters, or of handles) and is freed with the same number *)
Definition may (t : abs) (o : call) : Prop :=
  match o with
  | TextCopy _ p => match p with None => True | Some p => exists l, text t p l end
  | TextFree v => match v with None => True | Some k => exists l, mem t !! k = Some (map (fun c => Some (Byte c)) l) end
  | HandlesCopy _ p n => is_u32 n /\ match p with None => True | Some p => exists l, handles t p n l end
  | HandlesFree v n => is_u32 n /\ match v with None => True | Some k => exists l, mem t !! k = Some (map Some (map handle_cell l)) /\ (n = 0 \/ n = len l) end
  | HandleCopy _ h | HandleFree h => maybe_held t h
  end.

(** A copy of the value that [what] describes, made in a new block. It fails exactly when it may not be made ([bad]; nothing is stored then) or memory runs out (NULL is stored then). *)
Definition copies {A} (bad nomem : Prop) (t t' : abs) (r : bool * option (option nat)) (p : option A) (what : A -> list cell -> Prop) : Prop :=
  (bad -> r = (false, None) /\ same t t') /\
  (~ bad -> match p with
            | None => r = (true, Some None) /\ same t t'
            | Some p => (nomem -> r = (false, Some None) /\ same t t') /\ (~ nomem -> exists k c, r = (true, Some (Some k)) /\ what p c /\ gets_block t k c t')
            end).

Inductive answer := Copied (r : bool * option (option nat)) | Freed.
Definition does (nomem : Prop) (t : abs) (o : call) (r : answer) (t' : abs) : Prop :=
  match o, r with
  | TextCopy dest p, Copied r => copies (dest = false) nomem t t' r p (fun p c => exists l, text t p l /\ c = map Byte (l ++ [0]))
  | TextFree v, Freed => match v with None => same t t' | Some k => drops_block t k t' end
  | HandlesCopy dest p n, Copied r => copies (dest = false \/ n = 0) nomem t t' r p (fun p c => exists l, handles t p n l /\ c = map handle_cell l)
  | HandlesFree v n, Freed => match v with Some k => if decide (n = 0) then same t t' else drops_block t k t' | None => same t t' end
  | HandleCopy dest h, Copied r => if dest then r = (true, Some h) /\ same (match h with None => t | Some a => get_arr a t end) t' else r = (false, None) /\ same t t'
  | HandleFree h, Freed => same (match h with None => t | Some a => put_arr a t end) t'
  | _, _ => False
  end.

Local Open Scope cm.
Definition perform (o : call) : M heap answer :=
  match o with
  | TextCopy dest p => let* r := const_charptr_copy dest p in ret (Copied r)
  | TextFree v => const_charptr_free v ;;; ret Freed
  | HandlesCopy dest p n => let* r := constbuffer_array_ptr_copy dest p n in ret (Copied r)
  | HandlesFree v n => constbuffer_array_ptr_free v n ;;; ret Freed
  | HandleCopy dest h => let* r := CONSTBUFFER_ARRAY_HANDLE_copy dest h in ret (Copied r)
  | HandleFree h => CONSTBUFFER_ARRAY_HANDLE_free h ;;; ret Freed
  end.
