(** Model of src/object_lifetime_tracker.c.
    A DLIST of structs is the list of their addresses, in order (the list code itself is modelled in DListModel.v and proved in DListProps.v): DList_InsertHeadList puts an address at the head, DList_ForEach goes
    through the list from the head until the function says stop or fails. Pointers the user gives (keys, objects, destroy functions, contexts) are numbers, 0 is NULL.
    Every call runs under the tracker's lock from its first access to its last, and destroy and action functions may not call the tracker (they would wait for the lock forever), so calls take effect one after
    the other: the model runs one call at a time, and keeps the state of the lock to show that each call takes and releases it. Match and action functions depend on their arguments only. *)
From Verif Require Import Common.
Local Open Scope Z_scope.
Local Open Scope cmonad_scope.

(** object_lifetime_tracker.h: results of the match functions *)
Inductive matching := MATCHING | NOT_MATCHING | MATCH_ERROR.
(** What the user supplies: key_match_function, object_match_function and the result of action function f on (object, context). *)
Record functions := Functions { key_match : Z -> Z -> matching; object_match : Z -> Z -> matching; action : Z -> Z -> Z -> Z }.

(** object_lifetime_tracker.c:19-25 struct OBJECT_TAG *)
Record object_struct := Obj { object : Z; destroy_object : Z; destroy_context : Z }.
(** object_lifetime_tracker.c:27-32 struct KEY_TAG *)
Record key_struct := Key { key : Z; objects : list positive }.
(** What the user's functions see: a destroy function called on an object and its context; an action function called on an object and a context. *)
Inductive event := Destroyed (f o ctx : Z) | Acted (f o ctx : Z).
Inductive lock_state := Free | Exclusive | Shared.
(** Memory, with the tracker (object_lifetime_tracker.c:34-40): whether its struct and its lock are there, its list of keys, the state of the lock. oracle says whether each next allocation succeeds (they do at its end),
    fails counts those that did not. events: what happened, the latest last. *)
Record st := St { there : bool; keys : list positive; lock : lock_state; key_mem : gmap positive key_struct; object_mem : gmap positive object_struct; oracle : list bool; fails : nat; events : list event }.
Notation S := (M st).

Definition allocates : S bool := fun s =>
  match oracle s with
  | [] => Done (true, s)
  | true :: l => Done (true, St (there s) (keys s) (lock s) (key_mem s) (object_mem s) l (fails s) (events s))
  | false :: l => Done (false, St (there s) (keys s) (lock s) (key_mem s) (object_mem s) l (1 + fails s) (events s))
  end.
Definition set_keys (l : list positive) : S unit := fun s => Done (tt, St (there s) l (lock s) (key_mem s) (object_mem s) (oracle s) (fails s) (events s)).
Definition set_lock (x : lock_state) : S unit := fun s => Done (tt, St (there s) (keys s) x (key_mem s) (object_mem s) (oracle s) (fails s) (events s)).
Definition set_key_mem (m : gmap positive key_struct) : S unit := fun s => Done (tt, St (there s) (keys s) (lock s) m (object_mem s) (oracle s) (fails s) (events s)).
Definition set_object_mem (m : gmap positive object_struct) : S unit := fun s => Done (tt, St (there s) (keys s) (lock s) (key_mem s) m (oracle s) (fails s) (events s)).
Definition emit (e : event) : S unit := fun s => Done (tt, St (there s) (keys s) (lock s) (key_mem s) (object_mem s) (oracle s) (fails s) (events s ++ [e])).

(** srw_lock_acquire_exclusive / _shared: the thread that has the lock may not take it again; srw_lock_release_...: it must have it. The tracker must be there. *)
Definition acquire (x : lock_state) : S unit := let* s := get in if there s then match lock s with Free => set_lock x | _ => undef end else undef.
Definition release (x : lock_state) : S unit :=
  let* s := get in match lock s, x with Exclusive, Exclusive | Shared, Shared => set_lock Free | _, _ => undef end.

Definition get_key (p : positive) : S key_struct := let* s := get in match key_mem s !! p with Some k => ret k | None => undef end.
Definition get_object (p : positive) : S object_struct := let* s := get in match object_mem s !! p with Some o => ret o | None => undef end.
Definition set_key (p : positive) (k : key_struct) : S unit := let* _ := get_key p in let* s := get in set_key_mem (<[p := k]> (key_mem s)).
(** malloc(sizeof(KEY)) with the struct's first contents; malloc(sizeof(OBJECT)) *)
Definition new_key (k : key_struct) : S (option positive) :=
  let* ok := allocates in if (ok : bool) then let* s := get in let p := fresh (dom (key_mem s)) in set_key_mem (<[p := k]> (key_mem s)) ;;; ret (Some p) else ret None.
Definition new_object (o : object_struct) : S (option positive) :=
  let* ok := allocates in if (ok : bool) then let* s := get in let p := fresh (dom (object_mem s)) in set_object_mem (<[p := o]> (object_mem s)) ;;; ret (Some p) else ret None.
Definition free_key (p : positive) : S unit := let* _ := get_key p in let* s := get in set_key_mem (delete p (key_mem s)).
Definition free_object (p : positive) : S unit := let* _ := get_object p in let* s := get in set_object_mem (delete p (object_mem s)).
(** DList_RemoveEntryList: the list without the entry *)
Definition remove (p : positive) (l : list positive) : list positive := filter (fun q => q <> p) l.

(** What a DList_ForEach with is_same_key or is_same_object arrives at *)
Inductive found := Failed | NotFound | Found (p : positive).
(** object_lifetime_tracker.c:64-95 is_same_key, in DList_ForEach(&keys, is_same_key, ...) *)
Fixpoint find_key (F : functions) (k : Z) (l : list positive) : S found :=
  match l with
  | [] => ret NotFound
  | p :: l' => let* s := get_key p in
               match key_match F (key s) k with MATCHING => ret (Found p) | NOT_MATCHING => find_key F k l' | MATCH_ERROR => ret Failed end
  end.
(** object_lifetime_tracker.c:98-129 is_same_object, in DList_ForEach(&objects, is_same_object, ...) *)
Fixpoint find_object (F : functions) (o : Z) (l : list positive) : S found :=
  match l with
  | [] => ret NotFound
  | p :: l' => let* s := get_object p in
               match object_match F (object s) o with MATCHING => ret (Found p) | NOT_MATCHING => find_object F o l' | MATCH_ERROR => ret Failed end
  end.

(** object_lifetime_tracker.c:131-178 object_lifetime_tracker_create: whether it returns a tracker. (key_match, object_match: the arguments are not NULL; the functions are in [functions].) *)
Definition object_lifetime_tracker_create (key_match object_match : bool) : S bool :=
  if negb key_match || negb object_match then ret false
  else let* ok := allocates in
       if (ok : bool) then
         let* lk := allocates in
         if (lk : bool) then (fun s => Done (tt, St true [] Free (key_mem s) (object_mem s) (oracle s) (fails s) (events s))) ;;; ret true
         else ret false
       else ret false.
(** object_lifetime_tracker.c:180-194 object_lifetime_tracker_destroy *)
Definition object_lifetime_tracker_destroy (tracker : bool) : S unit :=
  if tracker then let* s := get in
    match there s, lock s with true, Free => fun s => Done (tt, St false [] Free (key_mem s) (object_mem s) (oracle s) (fails s) (events s)) | _, _ => undef end
  else ret tt.

(** MU_FAILURE is some number other than 0; it is none of the enumerators, which are small *)
Inductive register_result := REGISTER_OBJECT_NEW_KEY | REGISTER_OBJECT_NEW_OBJECT | REGISTER_OBJECT_EXISTS | REGISTER_OBJECT_ERROR | REGISTER_MU_FAILURE.
(** object_lifetime_tracker.c:260-304: registering under the key at kp, which was found or is new *)
Definition register_in (F : functions) (kp : positive) (new : bool) (o df dc : Z) : S register_result :=
  let* k := get_key kp in
  let* f := find_object F o (objects k) in
  match f with
  | Failed => ret REGISTER_OBJECT_ERROR
  | Found _ => ret REGISTER_OBJECT_EXISTS
  | NotFound =>
    let* p := new_object (Obj o df dc) in
    match p with
    | None => ret REGISTER_OBJECT_ERROR
    | Some op => set_key kp (Key (key k) (op :: objects k)) ;;; ret (if new then REGISTER_OBJECT_NEW_KEY else REGISTER_OBJECT_NEW_OBJECT)
    end
  end.
(** object_lifetime_tracker.c:196-325 object_lifetime_tracker_register_object *)
Definition object_lifetime_tracker_register_object (F : functions) (tracker : bool) (k o df dc : Z) : S register_result :=
  if negb tracker || (o =? 0) || (df =? 0) then ret REGISTER_MU_FAILURE
  else
    acquire Exclusive ;;;
    let* s := get in
    let* f := find_key F k (keys s) in
    let* r :=
      match f with
      | Failed => ret REGISTER_OBJECT_ERROR
      | Found kp => register_in F kp false o df dc
      | NotFound =>
        let* p := new_key (Key k []) in
        match p with
        | None => ret REGISTER_OBJECT_ERROR
        | Some kp =>
          set_keys (kp :: keys s) ;;;
          let* r := register_in F kp true o df dc in
          match r with
          | REGISTER_OBJECT_ERROR => let* s' := get in set_keys (tail (keys s')) ;;; free_key kp ;;; ret r   (* lines 306-313 *)
          | _ => ret r
          end
        end
      end in
    release Exclusive ;;;
    ret r.

Inductive unregister_result := UNREGISTER_OBJECT_OK | UNREGISTER_OBJECT_ERROR | UNREGISTER_OBJECT_NOT_FOUND | UNREGISTER_KEY_NOT_FOUND.
(** object_lifetime_tracker.c:327-407 object_lifetime_tracker_unregister_object *)
Definition object_lifetime_tracker_unregister_object (F : functions) (tracker : bool) (k o : Z) : S unregister_result :=
  if negb tracker || (o =? 0) then ret UNREGISTER_OBJECT_ERROR
  else
    acquire Exclusive ;;;
    let* s := get in
    let* f := find_key F k (keys s) in
    let* r :=
      match f with
      | Failed => ret UNREGISTER_OBJECT_ERROR
      | NotFound => ret UNREGISTER_KEY_NOT_FOUND
      | Found kp =>
        let* ks := get_key kp in
        let* g := find_object F o (objects ks) in
        match g with
        | Failed => ret UNREGISTER_OBJECT_ERROR
        | NotFound => ret UNREGISTER_OBJECT_NOT_FOUND
        | Found op =>
          let l := remove op (objects ks) in
          set_key kp (Key (key ks) l) ;;; free_object op ;;;
          (if decide (l = []) then let* s' := get in set_keys (remove kp (keys s')) ;;; free_key kp else ret tt) ;;;
          ret UNREGISTER_OBJECT_OK
        end
      end in
    release Exclusive ;;;
    ret r.

(** object_lifetime_tracker.c:437-449: the objects of the key at kp, one by one; l are those left in the list *)
Fixpoint destroy_objects (kp : positive) (l : list positive) : S unit :=
  match l with
  | [] => ret tt
  | op :: l' =>
    let* ks := get_key kp in set_key kp (Key (key ks) l') ;;;
    let* o := get_object op in
    emit (Destroyed (destroy_object o) (object o) (destroy_context o)) ;;;
    free_object op ;;;
    destroy_objects kp l'
  end.
(** object_lifetime_tracker.c:409-458 object_lifetime_tracker_destroy_all_objects_for_key *)
Definition object_lifetime_tracker_destroy_all_objects_for_key (F : functions) (tracker : bool) (k : Z) : S unit :=
  if negb tracker then ret tt
  else
    acquire Exclusive ;;;
    let* s := get in
    let* f := find_key F k (keys s) in
    match f with
    | Failed | NotFound => ret tt
    | Found kp =>
      let* ks := get_key kp in
      destroy_objects kp (objects ks) ;;;
      let* s' := get in set_keys (remove kp (keys s')) ;;;
      free_key kp
    end ;;;
    release Exclusive.

Inductive act_result := ACT_OK | ACT_ERROR | ACT_KEY_NOT_FOUND | ACT_OBJECT_NOT_FOUND.
(** object_lifetime_tracker.c:460-544 object_lifetime_tracker_act *)
Definition object_lifetime_tracker_act (F : functions) (tracker : bool) (k o f ctx : Z) : S act_result :=
  if negb tracker || (k =? 0) || (o =? 0) || (f =? 0) then ret ACT_ERROR
  else
    acquire Shared ;;;
    let* s := get in
    let* fk := find_key F k (keys s) in
    let* r :=
      match fk with
      | Failed => ret ACT_ERROR
      | NotFound => ret ACT_KEY_NOT_FOUND
      | Found kp =>
        let* ks := get_key kp in
        let* g := find_object F o (objects ks) in
        match g with
        | Failed => ret ACT_ERROR
        | NotFound => ret ACT_OBJECT_NOT_FOUND
        | Found op =>
          let* os := get_object op in
          emit (Acted f (object os) ctx) ;;;
          ret (if decide (action F f (object os) ctx <> 0) then ACT_ERROR else ACT_OK)
        end
      end in
    release Shared ;;;
    ret r.
