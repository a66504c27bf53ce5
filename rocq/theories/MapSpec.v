(** What a MAP is to its user: the entries, in insertion order, and a filter. The calls, and their effect. *)
From Verif Require Import Common Block CMem CStr CArr MapModel.
Local Open Scope cmonad_scope.

Notation text := (list Z).
Record amap := AMap { entries : list (text * text); afilter : option filt }.
Notation maps := (gmap positive amap).

(** The calls; None is a NULL argument. *)
Inductive op :=
| Create (f : option filt) | Destroy (h : ptr) | Clone (h : ptr) | Add (h : ptr) (k v : option text) | AddOrUpdate (h : ptr) (k v : option text)
| Delete (h : ptr) (k : option text) | ContainsKey (h : ptr) (k : option text) (out : bool) | ContainsValue (h : ptr) (v : option text) (out : bool)
| GetValueFromKey (h : ptr) (k : option text) | GetInternals (h : ptr) (out : bool).

(** What the caller sees: a handle, nothing, a code, a code and a bool, the characters behind a returned pointer,
    a code and all the strings of the two arrays. *)
Inductive res := RHandle (h : ptr) | RUnit | RCode (c : map_result) | RBool (c : map_result) (b : option bool) | RText (t : option text)
| RAll (c : map_result) (l : option (list (text * text))).

Definition arg (t : option text) : option csrc := (fun l => CExt (l ++ [0%Z])) <$> t.
(** The caller reads the arrays Map_GetInternals gave. *)
Fixpoint read_all (ks vs : ptr) (i n : nat) : MM (list (text * text)) :=
  match n with
  | 0 => ret []
  | S n =>
    let* k := arr_get ks i in let* k := src_of k in let* k := text_of k in
    let* v := arr_get vs i in let* v := src_of v in let* v := text_of v in
    let* l := read_all ks vs (S i) n in ret ((k, v) :: l)
  end.
Definition run (o : op) : MM res :=
  match o with
  | Create f => let* r := Map_Create f in ret (RHandle r)
  | Destroy h => Map_Destroy h ;;; ret RUnit
  | Clone h => let* r := Map_Clone h in ret (RHandle r)
  | Add h k v => let* r := Map_Add h (arg k) (arg v) in ret (RCode r)
  | AddOrUpdate h k v => let* r := Map_AddOrUpdate h (arg k) (arg v) in ret (RCode r)
  | Delete h k => let* r := Map_Delete h (arg k) in ret (RCode r)
  | ContainsKey h k out => let* (r, b) := Map_ContainsKey h (arg k) out in ret (RBool r b)
  | ContainsValue h v out => let* (r, b) := Map_ContainsValue h (arg v) out in ret (RBool r b)
  | GetValueFromKey h k =>
      let* r := Map_GetValueFromKey h (arg k) in
      match r with None => ret (RText None) | Some p => let* t := text_of (CPtr p) in ret (RText (Some t)) end
  | GetInternals h out =>
      let* (r, x) := Map_GetInternals h out in
      match x with None => ret (RAll r None) | Some (ks, vs, n) => let* l := read_all ks vs 0 n in ret (RAll r (Some l)) end
  end.

(** Association lists. *)
Fixpoint assoc (k : text) (e : list (text * text)) : option text :=
  match e with [] => None | (k', v) :: e => if decide (k' = k) then Some v else assoc k e end.
Definition update (k v : text) (e : list (text * text)) : list (text * text) := (fun p => if decide (p.1 = k) then (k, v) else p) <$> e.
Fixpoint without (k : text) (e : list (text * text)) : list (text * text) :=
  match e with [] => [] | (k', v) :: e => if decide (k' = k) then without k e else (k', v) :: without k e end.
Definition rejects (f : option filt) (k v : text) : bool := match f with None => false | Some f => f k v end.
(** What becomes of the filter of a map that has these entries now. (See C13.) *)
Definition kept (e : list (text * text)) (f : option filt) : option filt := match e with [] => None | _ => f end.

Definition answers (x : res) (a : maps) (r : res) (a' : maps) : Prop := r = x /\ a' = a.
Definition creates (m : amap) (a : maps) (r : res) (a' : maps) : Prop := exists h, a !! h = None /\ r = RHandle (Some h) /\ a' = <[h := m]> a.
Definition becomes (h : positive) (m : amap) (a : maps) (r : res) (a' : maps) : Prop := r = RCode MAP_OK /\ a' = <[h := m]> a.

(** The effect of each call when nothing fails. *)
Definition effect (o : op) (a : maps) (r : res) (a' : maps) : Prop :=
  let on (h : positive) (k : amap -> Prop) : Prop := exists m, a !! h = Some m /\ k m in
  match o with
  | Create f => creates (AMap [] f) a r a'
  | Destroy None => answers RUnit a r a'
  | Destroy (Some h) => r = RUnit /\ a' = delete h a
  | Clone None => answers (RHandle None) a r a'
  | Clone (Some h) => on h (fun m => creates (AMap (entries m) (kept (entries m) (afilter m))) a r a')
  | Add (Some h) (Some k) (Some v) => on h (fun m =>
      match assoc k (entries m) with
      | Some _ => answers (RCode MAP_KEYEXISTS) a r a'
      | None => if rejects (afilter m) k v then answers (RCode MAP_FILTER_REJECT) a r a'
                else becomes h (AMap (entries m ++ [(k, v)]) (afilter m)) a r a'
      end)
  | AddOrUpdate (Some h) (Some k) (Some v) => on h (fun m =>
      if rejects (afilter m) k v then answers (RCode MAP_FILTER_REJECT) a r a'
      else match assoc k (entries m) with
           | Some _ => becomes h (AMap (update k v (entries m)) (afilter m)) a r a'
           | None => becomes h (AMap (entries m ++ [(k, v)]) (afilter m)) a r a'
           end)
  | Delete (Some h) (Some k) => on h (fun m =>
      match assoc k (entries m) with
      | None => answers (RCode MAP_KEYNOTFOUND) a r a'
      | Some _ => let e := without k (entries m) in becomes h (AMap e (kept e (afilter m))) a r a'
      end)
  | Add _ _ _ | AddOrUpdate _ _ _ | Delete _ _ => answers (RCode MAP_INVALIDARG) a r a'
  | ContainsKey (Some h) (Some k) true => on h (fun m => answers (RBool MAP_OK (Some (bool_decide (k ∈ (entries m).*1)))) a r a')
  | ContainsValue (Some h) (Some v) true => on h (fun m => answers (RBool MAP_OK (Some (bool_decide (v ∈ (entries m).*2)))) a r a')
  | ContainsKey _ _ _ | ContainsValue _ _ _ => answers (RBool MAP_INVALIDARG None) a r a'
  | GetValueFromKey (Some h) (Some k) => on h (fun m => answers (RText (assoc k (entries m))) a r a')
  | GetValueFromKey _ _ => answers (RText None) a r a'
  | GetInternals (Some h) true => on h (fun m => answers (RAll MAP_OK (Some (entries m))) a r a')
  | GetInternals _ _ => answers (RAll MAP_INVALIDARG None) a r a'
  end.

(** A failing call: what it answers, and that no entry of any map changes. A map without entries may lose its filter (see C13). *)
Definition failed (o : op) (a : maps) (r : res) (a' : maps) : Prop :=
  match o with
  | Create _ | Clone _ => answers (RHandle None) a r a'
  | Add (Some h) _ _ | AddOrUpdate (Some h) _ _ => r = RCode MAP_ERROR /\ (a' = a \/ exists f, a !! h = Some (AMap [] f) /\ a' = <[h := AMap [] None]> a)
  | _ => False
  end.
(** Besides a failing allocation, calls fail when they would have to copy a string of more than INT_MAX characters, or when the array of entries would not fit
    in memory. *)
Definition long (t : text) : Prop := (INT32_MAX < Z.of_nat (length t))%Z.
Definition too_big (o : op) (a : maps) : Prop :=
  let many h := exists m, a !! h = Some m /\ (UINT64_MAX < 8 + Z.of_nat (length (entries m)) * 8)%Z in
  match o with
  | Clone (Some h) => many h \/ exists m k v, a !! h = Some m /\ (k, v) ∈ entries m /\ (long k \/ long v)
  | Add (Some h) (Some k) (Some v) | AddOrUpdate (Some h) (Some k) (Some v) => many h \/ long k \/ long v
  | _ => False
  end.

(** The calls a user may make: live handles, and strings of their own (not strings that live in the map). *)
Definition text_ok (t : option text) : Prop := match t with None => True | Some l => Forall (fun c => c <> 0%Z) l /\ (Z.of_nat (length l) + 1 <= UINT64_MAX)%Z end.
Definition live (a : maps) (h : ptr) : Prop := match h with None => True | Some h => is_Some (a !! h) end.
Definition allowed (a : maps) (o : op) : Prop :=
  match o with
  | Create _ => True
  | Destroy h | Clone h | GetInternals h _ => live a h
  | Add h k v | AddOrUpdate h k v => live a h /\ text_ok k /\ text_ok v
  | Delete h k | ContainsKey h k _ | ContainsValue h k _ | GetValueFromKey h k => live a h /\ text_ok k
  end.
