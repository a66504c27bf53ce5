(** Property theorem for Map_ToJSON (C14). *)
From Verif Require Import Common Block CMem CStr StrModel StrSpec MapJsonModel MapJsonSpec.
From Verif Require CMemFacts StrProofs MapJsonProofs.

(** A key or a value with a character of 128 or more. *)
Definition entry_wide (m : list Z * list Z) : Prop := Exists (fun c => 128 <= c)%Z m.1 \/ Exists (fun c => 128 <= c)%Z m.2.

(** C14: R relates the states of a program that uses STRINGs with the strings it has (as in C10: from related states every STRING call completes, with the effect it has
    on character sequences, in related states again). From such a state, Map_ToJSON of a map with entries es completes. Either it answers a new string, the only thing that
    changes; the string is printable ASCII and reads as a JSON object whose members are exactly es, in order. Or it answers NULL, and nothing changes (what was built so far is gone):
    because a key or value has a character of 128 or more, or the result does not fit in memory, or an allocation failed. *)
Theorem C14_map_to_json :
  exists R : st STRING -> strings -> Prop,
    (forall oracle, R (St ∅ ∅ oracle 0) ∅) /\
    (forall s a o, R s a -> allowed a o -> exists r s' a', run o s = Done (r, s') /\ R s' a' /\ (effect o a r a' \/ (fails s < fails s' /\ failure o = Some r /\ a' = a))) /\
    (forall s a es, R s a -> Forall (fun m => string_ok m.1 /\ string_ok m.2) es -> exists r s', Map_ToJSON (Some es) s = Done (r, s') /\
       match r with
       | Some h => a !! h = None /\ exists j, R s' (<[h := j]> a) /\ json_object j = Some es /\ Forall (fun c => 32 <= c < 128)%Z j
       | None => R s' a /\ (Exists entry_wide es \/ ~ fits (length (object_text es)) \/ fails s < fails s')
       end) /\
    (forall s, Map_ToJSON None s = Done (None, s)) /\
    (forall s, R s ∅ -> mem s = ∅ /\ objs s = ∅).
Proof.
  exists StrProofs.srep. split; [intros; apply CMemFacts.rep_empty|]. split; [|split; [|split; [done|apply CMemFacts.rep_all_freed]]].
  - intros s a o R Hal. destruct (StrProofs.step_ok o s a R Hal) as (r&s'&a'&H1&H2&H3). eauto 10.
  - intros s a es R Hes. pose proof (MapJsonProofs.ToJSON_ok es s a R Hes) as H. unfold CMemFacts.wp in H.
    destruct (Map_ToJSON (Some es) s) as [[r s']| |]; [|destruct H..]. exists r, s'. split; [reflexivity|]. destruct r as [h|]; [|exact H].
    destruct H as (H1&H2&H3). split; [exact H1|]. exists (object_text es). split; [exact H2|].
    assert (Forall (fun m => Forall (fun c => 0 < c < 128)%Z m.1 /\ Forall (fun c => 0 < c < 128)%Z m.2) es) as Ha.
    { rewrite Forall_forall in *. intros m Hm. specialize (Hes m Hm). specialize (H3 m Hm). simpl in *. destruct Hes as [[L1 _] [L2 _]].
      assert (forall l, Forall (fun c => 0 < c <= 255)%Z l -> ~ Exists (fun c => 128 <= c)%Z l -> Forall (fun c => 0 < c < 128)%Z l) as Hl.
      { clear. intros l H1 H2. apply Forall_Exists_neg in H2. rewrite Forall_forall in *. intros c Hc. specialize (H1 c Hc). specialize (H2 c Hc). simpl in *. lia. }
      split; apply Hl; try assumption; intros E; apply H3; [by left|by right]. }
    split; [by apply MapJsonProofs.object_ok|by apply MapJsonProofs.object_range].
Qed.
Print Assumptions C14_map_to_json.

(** A map with two entries, one of them with a quotation mark in it; and the failure of the eighth allocation. *)
Definition es : list (list Z * list Z) := [([97], [98; 34]); ([99], [])]%Z.
Example ex_json :
  match Map_ToJSON (Some es) (St ∅ ∅ [] 0) with
  | Done (Some h, s) => match run (CStr (Some h)) s with
      | Done (RChars b, _) => b = Some (bytes_block [123; 34; 97; 34; 58; 34; 98; 92; 34; 34; 44; 34; 99; 34; 58; 34; 34; 125; 0]%Z) /\ length (map_to_list (mem s)) = 1
      | _ => False end
  | _ => False
  end.
Proof. vm_compute. done. Qed.
Example ex_fail :
  match Map_ToJSON (Some es) (St ∅ ∅ [true; true; true; true; true; true; true; false] 0) with
  | Done (r, s) => r = None /\ map_to_list (mem s) = [] /\ fails s = 1
  | _ => False
  end.
Proof. vm_compute. done. Qed.
Example ex_read : json_object [123; 34; 97; 34; 58; 34; 98; 92; 34; 34; 44; 34; 99; 34; 58; 34; 34; 125]%Z = Some es /\ json_object [123; 34; 97; 34; 58; 34; 125]%Z = None.
Proof. vm_compute. done. Qed.
