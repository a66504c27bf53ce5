(** Property theorems for src/map.c (C12, C13). *)
From Verif Require Import Common Block CMem CStr CArr MapModel MapSpec.
From Verif Require MapProofs.

(** [simulates R]: R relates the states of a program that uses maps with the maps it has. It holds when the program starts, without maps; from related
    states, every allowed call completes without undefined behaviour in related states again, and behaves as on insertion-ordered association
    lists ([effect]); or an allocation failed during the call (or the call asked for more than fits in memory), the call says so, and
    no map has changed ([failed]). Once every map has been destroyed, no memory is in use; and keys are distinct throughout. *)
Definition simulates (R : st obj -> maps -> Prop) : Prop :=
  (forall oracle, R (St ∅ ∅ oracle 0) ∅) /\
  (forall s a o, R s a -> allowed a o -> exists r s' a', run o s = Done (r, s') /\ R s' a' /\
     (effect o a r a' \/ ((fails s < fails s' \/ too_big o a) /\ failed o a r a'))) /\
  (forall s, R s ∅ -> mem s = ∅ /\ objs s = ∅) /\
  (forall s a h m, R s a -> a !! h = Some m -> NoDup (entries m).*1).

(** C12: for every history of calls on any number of maps, whichever allocations fail. *)
Theorem C12_map_is_an_association_list : exists R, simulates R.
Proof.
  exists MapProofs.reps. split; [intros; apply MapProofs.reps_empty|]. split; [|split].
  - intros s a o R Hal. destruct (MapProofs.step_ok o s a R Hal) as (r&s'&a'&H1&H2&H3). eauto 10.
  - apply MapProofs.reps_no_leak.
  - apply MapProofs.reps_nodup.
Qed.
Print Assumptions C12_map_is_an_association_list.

(** Running a list of calls. *)
Fixpoint run_all (p : list op) (s : st obj) : option (list res * st obj) :=
  match p with
  | [] => Some ([], s)
  | o :: p => match run o s with Done (r, s') => match run_all p s' with Some (l, s'') => Some (r :: l, s'') | None => None end | _ => None end
  end.
Definition init (oracle : list bool) : st obj := St ∅ ∅ oracle 0.

(** A program with two maps, and one failing allocation (the copy of the value, in the second Add). *)
Definition h1 : ptr := Some 1%positive.
Definition k1 : list Z := [97%Z].
Definition k2 : list Z := [98; 98]%Z.
Definition prog : list op :=
  [Create None; Add h1 (Some k1) (Some [49%Z]); Add h1 (Some k2) (Some [50%Z]); Add h1 (Some k2) (Some [51%Z]); Clone h1; AddOrUpdate h1 (Some k1) (Some [52; 53]%Z); Add h1 (Some k1) (Some []);
   GetInternals h1 true; Delete h1 (Some k1); GetValueFromKey h1 (Some k2); GetValueFromKey h1 (Some k1); ContainsKey h1 (Some k2) true; Destroy h1].
Example ex_run :
  match run_all prog (init [true; true; true; true; true; true; true; true; false]) with
  | Some (l, s) => l = [RHandle h1; RCode MAP_OK; RCode MAP_ERROR; RCode MAP_OK; RHandle (Some 10%positive); RCode MAP_OK; RCode MAP_KEYEXISTS;
      RAll MAP_OK (Some [(k1, [52; 53]%Z); (k2, [51%Z])]); RCode MAP_OK; RText (Some [51%Z]); RText None; RBool MAP_OK (Some true); RUnit] /\ fails s = 1
  | None => False
  end.
Proof. vm_compute. repeat split. Qed.

(** C12 without the restriction in [allowed] that the strings passed are the caller's own is false: Map_AddOrUpdate(h, k, Map_GetValueFromKey(h, k)),
    which ought to change nothing, reads freed memory when realloc moves the block. *)
Theorem C12_update_with_own_value_refuted :
  exists l s p s', run_all [Create None; Add h1 (Some k1) (Some k2)] (init []) = Some (l, s) /\
    Map_GetValueFromKey h1 (arg (Some k1)) s = Done (Some p, s') /\ Map_AddOrUpdate h1 (arg (Some k1)) (Some (CPtr p)) s' = Undef.
Proof.
  assert (match run_all [Create None; Add h1 (Some k1) (Some k2)] (init []) with
          | Some (l, s) => match Map_GetValueFromKey h1 (arg (Some k1)) s with
                           | Done (Some p, s') => match Map_AddOrUpdate h1 (arg (Some k1)) (Some (CPtr p)) s' with Undef => True | _ => False end
                           | _ => False
                           end
          | None => False
          end) as H by (vm_compute; exact I).
  destruct (run_all _ _) as [[l s]|] eqn:E1; [|destruct H]. destruct (Map_GetValueFromKey _ _ s) as [[[p|] s']| |] eqn:E2; [|destruct H..].
  destruct (Map_AddOrUpdate _ _ _ s') eqn:E3; [destruct H| |destruct H]. exists l, s, p, s'. split; [reflexivity|]. split; assumption.
Qed.
Print Assumptions C12_update_with_own_value_refuted.

(** C13 is false: a filter that rejects everything but one pair, and histories after which a rejected pair is stored: deleting the last entry loses the filter; so does
    a failing Map_Add on an empty map; and a clone of an empty map has no filter. *)
Definition only : filt := fun k v => negb (bool_decide (k = k1 /\ v = k1)).
Theorem C13_filter_lost_refuted :
  only k2 k2 = true /\
  (fst <$> run_all [Create (Some only); Add h1 (Some k2) (Some k2); Add h1 (Some k1) (Some k1); Delete h1 (Some k1); Add h1 (Some k2) (Some k2); GetInternals h1 true] (init []) =
     Some [RHandle h1; RCode MAP_FILTER_REJECT; RCode MAP_OK; RCode MAP_OK; RCode MAP_OK; RAll MAP_OK (Some [(k2, k2)])]) /\
  (fst <$> run_all [Create (Some only); Add h1 (Some k2) (Some k2); Add h1 (Some k1) (Some k1); Add h1 (Some k2) (Some k2); GetInternals h1 true] (init [true; true; true; false]) =
     Some [RHandle h1; RCode MAP_FILTER_REJECT; RCode MAP_ERROR; RCode MAP_OK; RAll MAP_OK (Some [(k2, k2)])]) /\
  (fst <$> run_all [Create (Some only); Clone h1; AddOrUpdate (Some 2%positive) (Some k2) (Some k2); GetInternals (Some 2%positive) true] (init []) =
     Some [RHandle h1; RHandle (Some 2%positive); RCode MAP_OK; RAll MAP_OK (Some [(k2, k2)])]).
Proof. split; [done|]. split; [|split]; vm_compute; reflexivity. Qed.
Print Assumptions C13_filter_lost_refuted.

(** C13, what holds: while a map has its filter, it stores nothing the filter rejects, and a map keeps its filter in every call that leaves it
    with entries; a clone of a map with entries has the filter, too. Missing: the filter of a map without entries. *)
Theorem C13_filter_guards_partial :
  exists R, simulates R /\
  (forall s a h m k v, R s a -> a !! h = Some m -> text_ok (Some k) -> text_ok (Some v) -> rejects (afilter m) k v = true ->
     exists c s', (c = MAP_FILTER_REJECT \/ c = MAP_KEYEXISTS) /\ run (Add (Some h) (Some k) (Some v)) s = Done (RCode c, s') /\ R s' a) /\
  (forall s a h m k v, R s a -> a !! h = Some m -> text_ok (Some k) -> text_ok (Some v) -> rejects (afilter m) k v = true ->
     exists s', run (AddOrUpdate (Some h) (Some k) (Some v)) s = Done (RCode MAP_FILTER_REJECT, s') /\ R s' a) /\
  (forall s a o h m, R s a -> allowed a o -> a !! h = Some m -> exists r s' a', run o s = Done (r, s') /\ R s' a' /\
     (forall m', a' !! h = Some m' -> entries m' <> [] -> afilter m' = afilter m) /\
     (forall h', o = Clone (Some h) -> r = RHandle (Some h') -> entries m <> [] -> a' !! h' = Some m)).
Proof.
  exists MapProofs.reps. split; [|split; [|split]].
  - split; [intros; apply MapProofs.reps_empty|]. split; [|split; [apply MapProofs.reps_no_leak|apply MapProofs.reps_nodup]].
    intros s a o R Hal. destruct (MapProofs.step_ok o s a R Hal) as (r&s'&a'&H1&H2&H3). eauto 10.
  - intros s a h m k v R Hm Hk Hv Hr. apply MapProofs.step_add_reject with m; done.
  - intros s a h m k v R Hm Hk Hv Hr. apply MapProofs.step_update_reject with m; done.
  - intros s a o h m R Hal Hm. destruct (MapProofs.step_ok o s a R Hal) as (r&s'&a'&H1&H2&H3). exists r, s', a'. split; [done|]. split; [done|]. split.
    + intros m' Hm' Hne. destruct H3 as [H3|[_ H3]]; [by eapply MapProofs.effect_filter|by eapply MapProofs.failed_filter].
    + intros h' -> -> Hne. destruct H3 as [H3|[_ [[=] _]]]. destruct H3 as (m0&Hm0&h2&_&[= ->]&->). simplify_eq. rewrite lookup_insert. f_equal. destruct m as [[|] fl]; done.
Qed.
Print Assumptions C13_filter_guards_partial.
