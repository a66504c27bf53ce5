(** Property theorems for src/strings.c (C10, C11). *)
From Verif Require Import Common Block CMem CMemFacts CStr StrModel StrSpec StrProofs.

(** The states a program can reach: it starts without strings and makes allowed calls. [calls s0 a0 t s a]: from s0 (whose live strings
    are a0) the calls t, with their answers, lead to s with live strings a. *)
Inductive calls (s0 : st STRING) (a0 : strings) : list (op * res) -> st STRING -> strings -> Prop :=
| calls_nil : calls s0 a0 [] s0 a0
| calls_step t s a o r s' a' : calls s0 a0 t s a -> allowed a o -> run o s = Done (r, s') ->
    (effect o a r a' \/ (fails s < fails s' /\ failure o = Some r /\ a' = a)) -> calls s0 a0 (t ++ [(o, r)]) s' a'.

Lemma calls_rep oracle t s a : calls (St ∅ ∅ oracle 0) ∅ t s a -> srep s a.
Proof.
  generalize (rep_empty s_ str_ok oracle 0). intros R0. induction 1 as [|t s a o' r s' a' H IH Hal Hrun He]; [done|].
  destruct (step_ok o' s a IH Hal) as (r1&s1&a1&Hrun1&R1&He1). rewrite Hrun in Hrun1. simplify_eq.
  assert (a' = a1) as ->; [|done]. by eapply effect_det.
Qed.

(** C10: whatever calls a program has made, on any number of strings and whichever allocations failed, every further allowed call completes
    without undefined behaviour and behaves as on character sequences ([effect]); or an allocation failed during
    the call, the call says so, and no string has changed. *)
Theorem C10_string_is_a_character_sequence :
  forall oracle t s a o, calls (St ∅ ∅ oracle 0) ∅ t s a -> allowed a o ->
    exists r s' a', run o s = Done (r, s') /\ calls (St ∅ ∅ oracle 0) ∅ (t ++ [(o, r)]) s' a' /\
      (effect o a r a' \/ (fails s < fails s' /\ failure o = Some r /\ a' = a)).
Proof.
  intros oracle t s a o H Ha. pose proof (calls_rep _ _ _ _ H) as R.
  destruct (step_ok o s a R Ha) as (r&s'&a'&Hrun&_&He). exists r, s', a'. split; [done|]. split; [|done]. by econstructor.
Qed.
Print Assumptions C10_string_is_a_character_sequence.

(** C10: nothing leaks: once every string has been deleted, no memory is in use. *)
Theorem C10_no_leak :
  forall oracle t s, calls (St ∅ ∅ oracle 0) ∅ t s ∅ -> mem s = ∅ /\ objs s = ∅.
Proof. intros oracle t s H. by eapply rep_all_freed, calls_rep. Qed.
Print Assumptions C10_no_leak.

(** C10: and while strings are alive, the blocks in use are exactly the ones they hold. *)
Theorem C10_memory_is_owned :
  forall oracle t s a p, calls (St ∅ ∅ oracle 0) ∅ t s a ->
    (is_Some (mem s !! p) <-> exists h b, objs s !! h = Some b /\ s_ b = Some p).
Proof.
  intros oracle t s a p H. pose proof (calls_rep _ _ _ _ H) as R. split; [apply R|].
  intros (h&b&Ho&Hb). destruct (proj1 (rep_dom _ _ _ _ R h)) as [v Hv]; [eauto|]. destruct (rep_ok _ _ _ _ R h b v Ho Hv) as [_ Hp]. by apply Hp.
Qed.
Print Assumptions C10_memory_is_owned.

(** C10 without the restriction in [allowed] that a string is not appended to itself is false: STRING_concat_with_STRING(h, h) and
    STRING_concat(h, STRING_c_str(h)) are undefined behaviour, for a live h and with every allocation succeeding. *)
Theorem C10_self_concat_refuted :
  exists t s a h, calls (St ∅ ∅ [] 0) ∅ t s a /\ a !! h = Some [65; 66]%Z /\
    run (ConcatString (Some h) (Some h)) s = Undef /\ run (Concat (Some h) (TOf h)) s = Undef.
Proof.
  destruct (step_ok (Construct (TExt [65; 66]%Z)) (St ∅ ∅ [] 0) ∅ (rep_empty s_ str_ok [] 0)) as (r&s'&a'&Hrun&R&He).
  { split; [by repeat constructor|done]. }
  exists [(Construct (TExt [65; 66]%Z), r)], s', a', 1%positive.
  split; [eapply (calls_step _ _ []); [constructor| |done|done]; split; [by repeat constructor|done]|].
  vm_compute in Hrun. simplify_eq. destruct He as [He|(He&_)]; [|vm_compute in He; lia].
  cbn [effect denotes] in He. rewrite decide_True in He by done. destruct He as (h&_&[= <-]&->). rewrite lookup_insert. split; [done|]. split; vm_compute; reflexivity.
Qed.
Print Assumptions C10_self_concat_refuted.

(** C11: STRING_new_JSON on any text l: either every character is below 128 and the result is a JSON string that denotes exactly l; or it is NULL,
    because l has a character of 128 or more, or the result does not fit in memory, or an allocation failed. *)
Theorem C11_new_JSON :
  forall oracle t s a x l, calls (St ∅ ∅ oracle 0) ∅ t s a -> text_ok a x -> denotes a x = Some l ->
    exists r s', run (NewJSON x) s = Done (RHandle r, s') /\
      match r with
      | Some h => a !! h = None /\ exists j, run (CStr (Some h)) s' = Done (RChars (Some (bytes_block (j ++ [0%Z]))), s') /\
          json_value j = Some l /\ Forall (fun c => 32 <= c < 128)%Z j
      | None => Exists (fun c => 128 <= c)%Z l \/ ~ fits (length (json l)) \/ fails s < fails s'
      end.
Proof.
  intros oracle t s a x l H Hx Hd. pose proof (calls_rep _ _ _ _ H) as R.
  destruct (step_ok (NewJSON x) s a R Hx) as (r&s'&a'&Hrun&R'&He).
  assert (Hl : string_ok l). { destruct x as [|l'|h]; simpl in *; [done|by simplify_eq|]. by destruct (get_str _ _ _ _ R Hd) as (?&?&?&?&?). }
  assert (He' : r = RHandle None /\ (Exists (fun c => 128 <= c)%Z l \/ ~ fits (length (json l)) \/ fails s < fails s') \/ ~ Exists (fun c => 128 <= c)%Z l /\ creates (json l) a r a').
  { destruct He as [He|(Hf&[= <-]&->)]; [|left; tauto]. cbn [effect] in He. rewrite Hd in He.
    destruct (decide (Exists (fun c => 128 <= c)%Z l)); [left; destruct He; tauto|]. destruct (decide (fits (length (json l)))); [tauto|left; destruct He; tauto]. }
  destruct He' as [[-> Hn]|[HE (h&Hh&->&->)]]; [by exists None, s'|].
  exists (Some h), s'. split; [done|]. split; [done|]. exists (json l).
  assert (Hpos : Forall (fun c => 0 < c < 128)%Z l).
  { destruct Hl as [Hl _]. apply Forall_Exists_neg in HE. apply Forall_forall. intros c Hc. rewrite Forall_forall in Hl, HE. specialize (Hl c Hc). specialize (HE c Hc). simpl in *. lia. }
  split; [|split; [by apply json_round_trip|]].
  - assert (<[h := json l]> a !! h = Some (json l)) as Hlk by (by rewrite lookup_insert). destruct (get_str _ _ _ _ R' Hlk) as (p&rest&Ho&Hm&Hok).
    cbn [run STRING_c_str]. unfold bind, get_obj, ret. rewrite Ho. cbn [s_]. unfold strlen, bind, cells. rewrite Hm.
    rewrite CStrFacts.scan0_str by by apply string_ok_zfree. unfold ret, load. rewrite Hm, CStrFacts.str_block_length, decide_True by lia.
    rewrite drop_0, CStrFacts.str_block_eq, take_app_alt; [done|]. by rewrite bb_length, app_length.
  - apply Forall_app. split; [by repeat constructor|]. apply Forall_app. split; [|by repeat constructor]. clear -Hpos.
    assert (forall i, i < 16 -> (32 <= nth i HEX 0 < 128)%Z) as Hhex. { intros i Hi. do 16 (destruct i; [simpl; lia|]). lia. }
    induction Hpos as [|c l Hc _ IH]; [constructor|]. rewrite fmap_cons. cbn [concat]. apply Forall_app. split; [|done]. unfold json_char.
    case_decide; [|case_decide]; repeat constructor; try lia; apply Hhex; pose proof (Z.div_pos c 16); pose proof (Z.div_lt_upper_bound c 16 16); pose proof (Z.mod_pos_bound c 16); lia.
Qed.
Print Assumptions C11_new_JSON.

(** A program with two strings and one failing allocation (the fifth). *)
Definition prog : list op :=
  [Construct (TExt [97; 98]%Z); New; Concat (Some 2%positive) (TOf 1%positive); Quote (Some 2%positive); ConcatString (Some 1%positive) (Some 2%positive);
   Copy (Some 2%positive) (TOf 2%positive); Sprintf (Some 2%positive) (Some (Fmt [99%Z] None)); Replace (Some 1%positive) 98 34; NewJSON (TOf 1%positive);
   CStr (Some 3%positive); Compare (Some 1%positive) (Some 2%positive); CStr (Some 2%positive); Delete (Some 1%positive); Delete (Some 2%positive); Delete (Some 3%positive)].
Fixpoint answers_of (p : list op) (s : st STRING) : option (list res * st STRING) :=
  match p with
  | [] => Some ([], s)
  | o :: p => match run o s with Done (r, s') => match answers_of p s' with Some (l, s'') => Some (r :: l, s'') | None => None end | _ => None end
  end.
Example ex_run :
  match answers_of prog (St ∅ ∅ [true; true; true; true; false] 0) with
  | Some (l, s) => l = [RHandle (Some 1%positive); RHandle (Some 2%positive); RInt 1; RInt 0; RInt 0; RInt 0; RInt 0; RInt 0; RHandle (Some 3%positive);
      RChars (Some (bytes_block [34; 97; 92; 34; 92; 34; 92; 34; 34; 0]%Z)); RInt 1; RChars (Some (bytes_block [34; 34; 99; 0]%Z)); RUnit; RUnit; RUnit] /\
      fails s = 1 /\ map_to_list (mem s) = [] /\ map_to_list (objs s) = []
  | None => False
  end.
Proof. vm_compute. repeat split. Qed.
(** A control character and a solidus. *)
Example ex_json : json [10; 47; 65]%Z = [34; 92; 117; 48; 48; 48; 65; 92; 47; 65; 34]%Z /\ json_value (json [10; 47; 65]%Z) = Some [10; 47; 65]%Z.
Proof. vm_compute. done. Qed.
