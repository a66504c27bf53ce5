(** Properties of the object lifetime tracker (C35). *)
From Verif Require Import Common OltModel OltSpec OltProofs.
Local Open Scope Z_scope.

Lemma behaves_inv F cs : good F -> forall (clean : Prop) b s m, (clean -> b = true) -> lock s = Free -> inv b s m -> behaves F clean s m cs.
Proof.
  intros HF. induction cs as [|c cs IH]; intros clean b s m Hcl Hl Hi; [done|]. simpl. intros Ha.
  assert (exists b', (clean /\ (c = Destroy true -> unregistered m) -> b' = true) /\ does_well F b' c s m) as (b' & Hb' & r & s' & m' & es & H1 & H2 & H3 & H4 & H5).
  { destruct c; simpl in Ha; subst.
    - exists b. split; [tauto|]. by apply create_well.
    - eexists. split; [|apply destroy_well; [done|exact Hi|done]]. intros [Hc Hd]. rewrite (Hcl Hc). destruct t; [|done]. destruct m as [f|]; [|done]. simpl.
      apply bool_decide_eq_true. destruct Hi as (_ & _ & L & -> & _ & Hp). rewrite (maps_empty f L Hp); [done|]. by apply Hd.
    - exists b. split; [tauto|]. by apply register_well.
    - exists b. split; [tauto|]. by apply unregister_well.
    - exists b. split; [tauto|]. by apply destroy_all_well.
    - exists b. split; [tauto|]. by apply act_well. }
  exists r, s', m', es. do 4 (split; [done|]). split.
  - intros Hc Hu. rewrite (Hb' Hc) in H5. destruct m' as [f|].
    + destruct H5 as (_ & _ & L & _ & Hm & Hp). rewrite (maps_empty f L Hp Hu) in Hm. by apply mem_empty.
    + destruct H5 as [_ Hm]. apply mem_empty. by apply Hm.
  - by apply (IH _ b').
Qed.

(** C35. Every sequence of calls, with any allocations failing, on any keys and objects, with match functions that say whether keys and objects are equal or fail: every call ends and does what OltSpec.does says of the map from keys to
    objects (in particular destroy_all calls the destroy functions of exactly the objects of the key, the latest first, and forgets them; act calls its function exactly on a registered pair; an error leaves the map as it was),
    the lock is free after every call, and no memory is left when nothing is registered.
    Partial: the result of register_object on NULL arguments is not the documented one (see the refutation below). *)
Theorem C35_tracker_is_a_map_partial F l cs : good F -> behaves F True (start l) None cs.
Proof.
  intros HF. apply (behaves_inv F cs HF True true); [done|done|]. split; [done|]. intros _. split.
  - intros * H. by apply elem_of_nil in H.
  - intros * H. by apply elem_of_nil in H.
  - constructor.
  - constructor.
  - constructor.
  - intros _ p [x Hx]. simpl in Hx. by rewrite lookup_empty in Hx.
  - intros _ p [x Hx]. simpl in Hx. by rewrite lookup_empty in Hx.
Qed.
Print Assumptions C35_tracker_is_a_map_partial.

(** A sequence of calls: two objects under key 7 and one under key 8; 7 is forgotten, its objects destroyed, the latest first; act finds object 22 and not 20. *)
Definition equal (x y : Z) : matching := if decide (x = y) then MATCHING else NOT_MATCHING.
Definition plain : functions := Functions equal equal (fun _ o _ => if decide (o = 22) then 0 else 1).
Lemma plain_good : good plain.
Proof. split; intros x y; simpl; unfold equal; destruct (decide (x = y)); done. Qed.
Definition example_calls : list call :=
  [Create true true; Register true 7 20 1 100; Register true 7 21 2 101; Register true 8 22 1 102; Register true 7 20 3 103; Act true 7 20 5 50; DestroyAll true 7; Act true 8 22 5 51; Act true 7 20 5 52; Unregister true 8 22; Destroy true].
Fixpoint run_all (F : functions) (cs : list call) (s : st) : option (list result * st) :=
  match cs with
  | [] => Some ([], s)
  | c :: cs' => match run F c s with Done (r, s') => match run_all F cs' s' with Some (rs, s2) => Some (r :: rs, s2) | None => None end | _ => None end
  end.
Example C35_example : (fun x => (x.1, events x.2, map_to_list (key_mem x.2), map_to_list (object_mem x.2))) <$> run_all plain example_calls (start []) =
  Some ([RBool true; RRegister REGISTER_OBJECT_NEW_KEY; RRegister REGISTER_OBJECT_NEW_OBJECT; RRegister REGISTER_OBJECT_NEW_KEY; RRegister REGISTER_OBJECT_EXISTS; RAct ACT_ERROR; RUnit; RAct ACT_OK; RAct ACT_KEY_NOT_FOUND;
         RUnregister UNREGISTER_OBJECT_OK; RUnit],
        [Acted 5 20 50; Destroyed 2 21 101; Destroyed 1 20 100; Acted 5 22 51], [], []).
Proof. vm_compute. done. Qed.
(** With the third allocation (of the key's struct) and then the fifth (of the object's) failing: the tracker is as before. *)
Example C35_example_failing : (fun x => (x.1, map_to_list (key_mem x.2))) <$> run_all plain [Create true true; Register true 7 20 1 100; Register true 7 20 1 100; Unregister true 7 20] (start [true; true; false; true; false]) =
  Some ([RBool true; RRegister REGISTER_OBJECT_ERROR; RRegister REGISTER_OBJECT_ERROR; RUnregister UNREGISTER_KEY_NOT_FOUND], []).
Proof. vm_compute. done. Qed.

(** The documented result for NULL arguments is not what register_object returns: it returns MU_FAILURE, which is none of its result values. *)
Theorem C35_documented_register_arguments_refuted : ~ documented_register_arguments.
Proof. intros H. specialize (H plain false 0 0 0 0 (start []) _ _ (or_introl eq_refl) eq_refl). done. Qed.
Print Assumptions C35_documented_register_arguments_refuted.

(** An object may be registered under the NULL key, but act refuses it. *)
Example C35_null_key : fst <$> run_all plain [Create true true; Register true 0 20 1 100; Act true 0 20 5 50] (start []) = Some [RBool true; RRegister REGISTER_OBJECT_NEW_KEY; RAct ACT_ERROR].
Proof. vm_compute. done. Qed.
(** object_lifetime_tracker_destroy does not release what is registered: one key and one object struct stay allocated. *)
Theorem C35_destroy_keeps_objects : exists s, run_all plain [Create true true; Register true 7 20 1 100; Destroy true] (start []) = Some ([RBool true; RRegister REGISTER_OBJECT_NEW_KEY; RUnit], s) /\
  there s = false /\ events s = [] /\ size (key_mem s) = 1%nat /\ size (object_mem s) = 1%nat.
Proof. eexists. split; [vm_compute; reflexivity|]. done. Qed.
