(** What the tracker is: a map from keys to the objects registered under them, the latest first. *)
From Verif Require Import Common OltModel.
Local Open Scope Z_scope.

(** The match functions say whether their arguments are equal, or fail. *)
Definition tells_equal (m : Z -> Z -> matching) : Prop := forall x y, (m x y = MATCHING -> x = y) /\ (m x y = NOT_MATCHING -> x <> y).
Definition good (F : functions) : Prop := tells_equal (key_match F) /\ tells_equal (object_match F).

(** No tracker, or the objects of each key (none: the key is not known). *)
Notation tracker := (option (Z -> list object_struct)).
Definition update (m : Z -> list object_struct) (k : Z) (l : list object_struct) : Z -> list object_struct := fun x => if decide (x = k) then l else m x.
Definition no_objects : Z -> list object_struct := fun _ => [].
Definition registered (m : Z -> list object_struct) (k o : Z) : Prop := exists e, e ∈ m k /\ object e = o.
(** A match function that fails on some key that is registered; on some object registered under k. *)
Definition key_fails (F : functions) (m : Z -> list object_struct) (k : Z) : Prop := exists x, m x <> [] /\ key_match F x k = MATCH_ERROR.
Definition object_fails (F : functions) (m : Z -> list object_struct) (k o : Z) : Prop := exists e, e ∈ m k /\ object_match F (object e) o = MATCH_ERROR.

Inductive call :=
| Create (key_match object_match : bool) | Destroy (t : bool)
| Register (t : bool) (k o df dc : Z) | Unregister (t : bool) (k o : Z) | DestroyAll (t : bool) (k : Z) | Act (t : bool) (k o f ctx : Z).
Inductive result := RUnit | RBool (b : bool) | RRegister (r : register_result) | RUnregister (r : unregister_result) | RAct (r : act_result).
Definition run (F : functions) (c : call) : M st result :=
  match c with
  | Create a b => bind (object_lifetime_tracker_create a b) (fun r => ret (RBool r))
  | Destroy t => bind (object_lifetime_tracker_destroy t) (fun _ => ret RUnit)
  | Register t k o df dc => bind (object_lifetime_tracker_register_object F t k o df dc) (fun r => ret (RRegister r))
  | Unregister t k o => bind (object_lifetime_tracker_unregister_object F t k o) (fun r => ret (RUnregister r))
  | DestroyAll t k => bind (object_lifetime_tracker_destroy_all_objects_for_key F t k) (fun _ => ret RUnit)
  | Act t k o f ctx => bind (object_lifetime_tracker_act F t k o f ctx) (fun r => ret (RAct r))
  end.
(** The handle passed may be NULL (t = false); otherwise it is that of a tracker that is there. One tracker at a time. *)
Definition allowed (c : call) (m : tracker) : Prop :=
  match c with
  | Create _ _ => m = None
  | Destroy t | Register t _ _ _ _ | Unregister t _ _ | DestroyAll t _ | Act t _ _ _ _ => t = true -> m <> None
  end.

(** Call c on m may answer r, leave m' and show the user's functions es. noalloc: an allocation failed during the call. *)
Inductive does (F : functions) (noalloc : bool) : call -> tracker -> result -> tracker -> list event -> Prop :=
| create_ok : does F noalloc (Create true true) None (RBool true) (Some no_objects) []
| create_args a b : a = false \/ b = false -> does F noalloc (Create a b) None (RBool false) None []
| create_fails : noalloc = true -> does F noalloc (Create true true) None (RBool false) None []
| destroy_null m : does F noalloc (Destroy false) m RUnit m []
| destroy_ok m : does F noalloc (Destroy true) (Some m) RUnit None []
| register_args t k o df dc m : t = false \/ o = 0 \/ df = 0 -> does F noalloc (Register t k o df dc) m (RRegister REGISTER_MU_FAILURE) m []
| register_new_key k o df dc m : o <> 0 -> df <> 0 -> m k = [] -> ~ key_fails F m k ->
    does F noalloc (Register true k o df dc) (Some m) (RRegister REGISTER_OBJECT_NEW_KEY) (Some (update m k [Obj o df dc])) []
| register_new_object k o df dc m : o <> 0 -> df <> 0 -> m k <> [] -> ~ registered m k o -> ~ object_fails F m k o ->
    does F noalloc (Register true k o df dc) (Some m) (RRegister REGISTER_OBJECT_NEW_OBJECT) (Some (update m k (Obj o df dc :: m k))) []
| register_exists k o df dc m : o <> 0 -> df <> 0 -> registered m k o -> does F noalloc (Register true k o df dc) (Some m) (RRegister REGISTER_OBJECT_EXISTS) (Some m) []
| register_error k o df dc m : o <> 0 -> df <> 0 -> key_fails F m k \/ object_fails F m k o \/ (noalloc = true /\ ~ registered m k o) ->
    does F noalloc (Register true k o df dc) (Some m) (RRegister REGISTER_OBJECT_ERROR) (Some m) []
| unregister_args t k o m : t = false \/ o = 0 -> does F noalloc (Unregister t k o) m (RUnregister UNREGISTER_OBJECT_ERROR) m []
| unregister_no_key k o m : o <> 0 -> m k = [] -> ~ key_fails F m k -> does F noalloc (Unregister true k o) (Some m) (RUnregister UNREGISTER_KEY_NOT_FOUND) (Some m) []
| unregister_no_object k o m : o <> 0 -> m k <> [] -> ~ registered m k o -> ~ object_fails F m k o ->
    does F noalloc (Unregister true k o) (Some m) (RUnregister UNREGISTER_OBJECT_NOT_FOUND) (Some m) []
| unregister_ok k o m l1 e l2 : o <> 0 -> m k = l1 ++ e :: l2 -> object e = o ->
    does F noalloc (Unregister true k o) (Some m) (RUnregister UNREGISTER_OBJECT_OK) (Some (update m k (l1 ++ l2))) []
| unregister_error k o m : o <> 0 -> key_fails F m k \/ object_fails F m k o -> does F noalloc (Unregister true k o) (Some m) (RUnregister UNREGISTER_OBJECT_ERROR) (Some m) []
| destroy_all_null k m : does F noalloc (DestroyAll false k) m RUnit m []
| destroy_all_ok k m : m k <> [] -> does F noalloc (DestroyAll true k) (Some m) RUnit (Some (update m k [])) ((fun e => Destroyed (destroy_object e) (object e) (destroy_context e)) <$> m k)
| destroy_all_none k m : m k = [] \/ key_fails F m k -> does F noalloc (DestroyAll true k) (Some m) RUnit (Some m) []
| act_args t k o f ctx m : t = false \/ k = 0 \/ o = 0 \/ f = 0 -> does F noalloc (Act t k o f ctx) m (RAct ACT_ERROR) m []
| act_no_key k o f ctx m : k <> 0 -> o <> 0 -> f <> 0 -> m k = [] -> ~ key_fails F m k -> does F noalloc (Act true k o f ctx) (Some m) (RAct ACT_KEY_NOT_FOUND) (Some m) []
| act_no_object k o f ctx m : k <> 0 -> o <> 0 -> f <> 0 -> m k <> [] -> ~ registered m k o -> ~ object_fails F m k o ->
    does F noalloc (Act true k o f ctx) (Some m) (RAct ACT_OBJECT_NOT_FOUND) (Some m) []
| act_done k o f ctx m r : k <> 0 -> o <> 0 -> f <> 0 -> registered m k o -> r = (if decide (action F f o ctx = 0) then ACT_OK else ACT_ERROR) ->
    does F noalloc (Act true k o f ctx) (Some m) (RAct r) (Some m) [Acted f o ctx]
| act_error k o f ctx m : k <> 0 -> o <> 0 -> f <> 0 -> key_fails F m k \/ object_fails F m k o -> does F noalloc (Act true k o f ctx) (Some m) (RAct ACT_ERROR) (Some m) [].

(** No object is registered. *)
Definition unregistered (m : tracker) : Prop := match m with None => True | Some f => forall k, f k = [] end.
(** From memory s, where the tracker is m, every sequence cs of calls that may be made: each call ends, does what [does] says, and leaves the lock free; and when no object is registered the tracker's lists take no memory
    (clean: so far no tracker was destroyed while it had objects). *)
Fixpoint behaves (F : functions) (clean : Prop) (s : st) (m : tracker) (cs : list call) : Prop :=
  match cs with
  | [] => True
  | c :: cs' => allowed c m ->
    exists r s' m' es, run F c s = Done (r, s') /\ does F (bool_decide (fails s < fails s')%nat) c m r m' es /\ events s' = events s ++ es /\ lock s' = Free /\
      let clean' := clean /\ (c = Destroy true -> unregistered m) in
      (clean' -> unregistered m' -> key_mem s' = ∅ /\ object_mem s' = ∅) /\ behaves F clean' s' m' cs'
  end.
(** Nothing is there yet; l says which allocations will fail. *)
Definition start (l : list bool) : st := St false [] Free ∅ ∅ l 0 [].

(** The documentation (devdoc/object_lifetime_tracker_requirements.md, SRS 43_012, 43_014, 43_015): a registration with a NULL argument returns REGISTER_OBJECT_ERROR. *)
Definition documented_register_arguments : Prop :=
  forall F t k o df dc s r s', t = false \/ o = 0 \/ df = 0 -> run F (Register t k o df dc) s = Done (r, s') -> r = RRegister REGISTER_OBJECT_ERROR.
