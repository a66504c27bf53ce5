(** Reference counted objects in Csl: a token is one reference; the objects themselves, with their counts, are shared. An object may itself hold references to others. *)
From Verif Require Export Csl.
From Verif Require Import Common Block CMem Prog.

Section rc.
(** V: what a reference tells about the object, for good. repr h v n: the object at h, when there are n references to it. holds v: the references it holds. *)
Context {O V : Type} `{!EqDecision V} {CV : Countable V}.
Notation T := (positive * V)%type.
Context (repr : positive -> V -> nat -> hPropI O) (holds : V -> gmultiset T).
Context (repr_excl : forall h v n v' n', repr h v n ∗ repr h v' n' ⊢ False).

(** The references held by the objects in G. *)
Definition held_by (G : gmap positive V) : gmultiset T := map_fold (fun _ v X => holds v ⊎ X) ∅ G.
Definition refs (X : gmultiset T) (G : gmap positive V) (h : positive) (v : V) : nat := multiplicity (h, v) (X ⊎ held_by G).
Definition RInv (X : gmultiset T) (sh : piece O) : Prop :=
  exists G : gmap positive V, hholds ([∗ map] h ↦ v ∈ G, repr h v (refs X G h v))%I sh /\
    (forall h v, (h, v) ∈ X ⊎ held_by G -> G !! h = Some v) /\ (forall h v, G !! h = Some v -> 1 <= refs X G h v).

Lemma held_by_insert G h v : G !! h = None -> held_by (<[h := v]> G) = holds v ⊎ held_by G.
Proof. intros Hn. unfold held_by. rewrite map_fold_insert_L //. intros. rewrite !(assoc_L (⊎)) (comm_L (⊎) (holds z1)) //. Qed.
Lemma held_by_delete G h v : G !! h = Some v -> held_by G = holds v ⊎ held_by (delete h G).
Proof. intros Hs. rewrite -(held_by_insert _ h); [by rewrite insert_delete|apply lookup_delete]. Qed.
Lemma RInv_init : RInv ∅ pempty.
Proof.
  exists ∅. split; [eapply (holds_mono emp); [by rewrite big_sepM_empty|done]|]. unfold held_by. rewrite map_fold_empty. split; [|done]. intros h v Hin. multiset_solver.
Qed.
Lemma RInv_end sh : RInv ∅ sh -> (forall G, G <> ∅ -> exists h v, G !! h = Some v /\ (h, v) ∉ held_by G) -> sh = pempty.
Proof.
  intros (G&HG&H1&H2) Hac. destruct (decide (G = ∅)) as [->|Hne]; [by eapply (holds_mono _ emp) in HG; [|by rewrite big_sepM_empty]|].
  destruct (Hac G Hne) as (h&v&Hs&Hni). specialize (H2 h v Hs). unfold refs in H2. rewrite left_id_L in H2. exfalso. apply Hni. apply elem_of_multiplicity. lia.
Qed.

(** [leads t t']: t' is t, or held by something t leads to. *)
Inductive leads : T -> T -> Prop :=
| leads_refl t : leads t t
| leads_step t h v t' : leads t (h, v) -> t' ∈ holds v -> leads t t'.
Lemma leads_valid X G t t' : (forall h v, (h, v) ∈ X ⊎ held_by G -> G !! h = Some v) -> t ∈ X ⊎ held_by G -> leads t t' -> t' ∈ X ⊎ held_by G.
Proof.
  intros HG Ht. induction 1 as [|t h v t' Hl IH Hin]; [done|]. specialize (HG _ _ (IH Ht)). rewrite (held_by_delete _ _ _ HG). multiset_solver.
Qed.

Lemma punion_swap (a b c : piece O) : pdisj a b -> punion a (punion b c) = punion b (punion a c).
Proof. intros Hd. by rewrite !punion_assoc (punion_comm a b). Qed.
Lemma piece_split p sh G h v X : hholds ([∗ map] h ↦ v ∈ G, repr h v (refs X G h v))%I sh -> G !! h = Some v -> pdisj p sh ->
  exists sh1 sh2, sh = punion sh1 sh2 /\ pdisj sh1 sh2 /\ pdisj p sh1 /\ pdisj p sh2 /\ hholds (repr h v (refs X G h v)) sh1 /\
    hholds ([∗ map] h' ↦ v' ∈ delete h G, repr h' v' (refs X G h' v'))%I sh2.
Proof.
  intros HG Hs Hd. rewrite -(insert_delete G h v) // in HG. eapply holds_mono in HG; [|rewrite big_sepM_insert; [|apply lookup_delete]; reflexivity].
  rewrite insert_delete // in HG. destruct HG as (sh1&sh2&->&Hd'&H1&H2). apply pdisj_union_r in Hd as [? ?]. exists sh1, sh2. done.
Qed.
Lemma big_sep_refs (G : gmap positive V) X X' Y Y' sh : (forall h v, G !! h = Some v -> refs X Y h v = refs X' Y' h v) ->
  hholds ([∗ map] h ↦ v ∈ G, repr h v (refs X Y h v))%I sh -> hholds ([∗ map] h ↦ v ∈ G, repr h v (refs X' Y' h v))%I sh.
Proof. intros HE. apply holds_mono. apply big_sepM_mono. intros h v Hs. by rewrite HE. Qed.

(** A new object, with one reference to it, takes the references it holds. *)
Lemma rc_share h v : lift (repr h v 1) ∗ toks (holds v) ⊢ upd RInv (tok (h, v)).
Proof.
  apply centails_intro. intros r (r1&r2&->&Hd&[H1 E1]&->) fr sh D1 D2 (G&HG&HV&HC). unfold sunion in *. cbn [spiece stoks] in *. rewrite E1 in HV HC HG |- *. rewrite punion_empty_r in D2 |- *.
  rewrite left_id_L in HV HC HG. unfold sdisj in D1. cbn [spiece] in D1. rewrite punion_empty_r in D1. apply pdisj_union_l in D2 as [D2 D3].
  assert (Hn : G !! h = None).
  { destruct (G !! h) as [v'|] eqn:Hs; [|done]. destruct (piece_split _ _ _ _ _ _ HG Hs D2) as (sh1&sh2&->&Hd'&Da&Db&Ha&Hb). exfalso.
    eapply (holds_mono _ _ _ (repr_excl h v 1 v' _)). exists (spiece r1), sh1. split_and!; done. }
  assert (Hz : multiplicity (h, v) (holds v ⊎ stoks fr ⊎ held_by G) = 0).
  { destruct (decide ((h, v) ∈ holds v ⊎ stoks fr ⊎ held_by G)) as [Hin|Hni]; [apply HV in Hin; by rewrite Hn in Hin|]. rewrite elem_of_multiplicity in Hni. lia. }
  exists (Share pempty {[+ (h, v) +]}), (punion (spiece r1) sh). cbn [spiece stoks]. rewrite punion_empty_l. split; [apply sdisj_empty_l|]. split; [apply pdisj_union_r; split; [by apply pdisj_sym|done]|].
  split; [|split; [rewrite punion_assoc (punion_comm (spiece r1)) //|done]].
  exists (<[h := v]> G). split; [|split].
  - eapply holds_mono; [rewrite big_sepM_insert //|]. exists (spiece r1), sh. split; [done|]. split; [done|]. split.
    + unfold refs. rewrite held_by_insert //. rewrite !multiplicity_disj_union multiplicity_singleton. rewrite !multiplicity_disj_union in Hz. replace (1 + _ + _) with 1; [done|lia].
    + revert HG. apply big_sep_refs. intros h' v' Hs. unfold refs. rewrite held_by_insert // !multiplicity_disj_union multiplicity_singleton_ne; [lia|]. intros [= -> ->]. congruence.
  - intros h' v'. rewrite held_by_insert //. intros Hin. destruct (decide ((h', v') = (h, v))) as [[= -> ->]|Hne]; [by rewrite lookup_insert|].
    assert (G !! h' = Some v') as Hs. { apply HV. multiset_solver. }
    rewrite lookup_insert_ne //. intros ->. congruence.
  - intros h' v'. unfold refs. rewrite held_by_insert //. destruct (decide (h = h')) as [<-|Hne].
    + rewrite lookup_insert. intros [= ->]. rewrite !multiplicity_disj_union multiplicity_singleton. lia.
    + rewrite lookup_insert_ne //. intros Hs. specialize (HC h' v' Hs). unfold refs in HC. rewrite !multiplicity_disj_union in HC |- *. lia.
Qed.

(** An action on an object one has a reference to, or that such an object leads to, which changes nothing. *)
Lemma rc_read {A X} (m : M (st O) X) (k : X -> prog (st O) A) (φ : X -> Prop) t h v f Q : leads t (h, v) ->
  (forall n f', 1 <= n -> repr h v n ⊢ wpi m f' (fun x f'' => ⌈φ x /\ f'' = f'⌉ ∗ repr h v n)) ->
  tok t -∗ (∀ x f', ⌈f <= f' /\ φ x⌉ -∗ tok t -∗ cwp RInv (k x) f' Q) -∗ cwp RInv (Act m k) f Q.
Proof.
  intros Hl Hm. iIntros "H1 H2". iStopProof. apply centails_intro. intros r (r1&r2&->&Hd&->&H2). apply (proj2 (cwp_is_closed RInv Q)).
  intros fr sh orc f' D1 D2 (G&HG&HV&HC) Hf'. cbn [sunion spiece stoks] in D2, HG, HV, HC.
  set (X0 := {[+ t +]} ⊎ stoks r2 ⊎ stoks fr) in *. assert (t ∈ X0 ⊎ held_by G) as Ht by multiset_solver.
  pose proof (HV _ _ (leads_valid _ _ _ _ HV Ht Hl)) as Hs. destruct (piece_split _ _ _ _ _ _ HG Hs D2) as (sh1&sh2&->&Hd'&Da&Db&Ha&Hb).
  pose proof (holds_mono _ _ _ (Hm _ f' (HC _ _ Hs)) Ha) as Hw. set (p := punion (punion pempty (spiece r2)) (spiece fr)) in *.
  specialize (Hw (punion p sh2) orc). assert (pdisj sh1 (punion p sh2)) as Dc. { apply pdisj_union_r. split; [by apply pdisj_sym|done]. }
  specialize (Hw Dc). unfold heap_state. cbn [spiece stoks sunion]. fold p.
  replace (punion p (punion sh1 sh2)) with (punion sh1 (punion p sh2)). 2:{ apply punion_swap. by apply pdisj_sym. }
  destruct (m _) as [[x s']| |]; [|done..]. destruct Hw as (p'&D5&Hmem&Hobj&Hf2&HΦ). destruct HΦ as (pz&p''&->&_&[-> [Hφ Hff]]&HΦ). rewrite punion_empty_l in D5, Hmem, Hobj.
  apply pdisj_union_r in D5 as [D5 D6].
  exists x, s', (sunion (Share pempty {[+ t +]}) r2), (punion p'' sh2). split; [done|]. split; [done|]. cbn [spiece stoks sunion]. fold p X0. split; [apply pdisj_union_r; split; [by apply pdisj_sym|done]|].
  split.
  { exists G. split; [|done]. eapply holds_mono; [rewrite (big_sepM_delete _ _ _ _ Hs) //|]. exists p'', sh2. done. }
  replace (punion p (punion p'' sh2)) with (punion p'' (punion p sh2)). 2:{ by apply punion_swap. }
  split; [done|]. split; [done|]. split; [lia|].
  specialize (H2 x (fails s') sempty (sdisj_empty_r _)). rewrite sunion_empty_r in H2. rewrite sunion_comm //. apply H2; [|by apply sdisj_sym|done]. split; [done|]. cbn. split; [lia|done].
Qed.

(** An action on an object one has a reference to, which changes the count: afterwards one has j references, or the object (and the references it held) if none are left at all. *)
Lemma rc_count {A X} (m : M (st O) X) (k : X -> prog (st O) A) (φ : X -> nat -> bool -> Prop) h v R f Q :
  (forall n f', 1 <= n -> repr h v n ⊢ wpi m f' (fun x f'' => ∃ j n', ⌈φ x j (bool_decide (n' = 0)) /\ f'' = f' /\ (n' + 1 = n + j)%nat⌉ ∗ if decide (n' = 0) then R else repr h v n')) ->
  tok (h, v) -∗ (∀ x j e f', ⌈f <= f' /\ φ x j e⌉ -∗ (if (e : bool) then lift R ∗ toks (holds v) else toks (list_to_set_disj (replicate j (h, v)))) -∗ cwp RInv (k x) f' Q) -∗
  cwp RInv (Act m k) f Q.
Proof.
  intros Hm. iIntros "H1 H2". iStopProof. apply centails_intro. intros r (r1&r2&->&Hd&->&H2). apply (proj2 (cwp_is_closed RInv Q)).
  intros fr sh orc f' D1 D2 (G&HG&HV&HC) Hf'. cbn [sunion spiece stoks] in D2, HG, HV, HC.
  set (t := (h, v)) in *. set (X0 := {[+ t +]} ⊎ stoks r2 ⊎ stoks fr) in *. assert (t ∈ X0 ⊎ held_by G) as Ht by multiset_solver.
  pose proof (HV _ _ Ht) as Hs. destruct (piece_split _ _ _ _ _ _ HG Hs D2) as (sh1&sh2&->&Hd'&Da&Db&Ha&Hb).
  pose proof (holds_mono _ _ _ (Hm _ f' (HC _ _ Hs)) Ha) as Hw. set (p := punion (punion pempty (spiece r2)) (spiece fr)) in *.
  specialize (Hw (punion p sh2) orc). assert (pdisj sh1 (punion p sh2)) as Dc. { apply pdisj_union_r. split; [by apply pdisj_sym|done]. }
  specialize (Hw Dc). unfold heap_state. cbn [spiece stoks sunion]. fold p.
  replace (punion p (punion sh1 sh2)) with (punion sh1 (punion p sh2)). 2:{ apply punion_swap. by apply pdisj_sym. }
  destruct (m _) as [[x s']| |]; [|done..]. destruct Hw as (p'&D5&Hmem&Hobj&Hf2&HΦ). destruct HΦ as (j&n'&pz&p''&->&_&[-> (Hφ&Hff&Hn)]&HΦ). rewrite punion_empty_l in D5, Hmem, Hobj.
  apply pdisj_union_r in D5 as [D5 D6]. apply sdisj_union_l in D1 as [_ D1].
  assert (forall v', (h, v') ∈ X0 ⊎ held_by G -> v' = v) as Hun. { intros v' Hin. apply HV in Hin. change (fst t) with h in Hs. congruence. }
  destruct (decide (n' = 0)) as [->|Hn'].
  - (* the last reference *)
    unfold refs in Hn. assert (j = 0 /\ multiplicity t (X0 ⊎ held_by G) = 1) as [-> Hone]. { rewrite elem_of_multiplicity in Ht. split; fold t in Hn; lia. }
    exists x, s', (sunion (Share p'' (holds v)) r2), sh2. split; [done|]. unfold p in D5. rewrite punion_empty_l in D5. apply pdisj_union_r in D5 as [D5 D7]. cbn [spiece stoks sunion].
    split; [by apply sdisj_union_l|]. rewrite -punion_assoc. unfold p in Db, Hmem, Hobj, D6. rewrite punion_empty_l in Db, Hmem, Hobj. split; [by apply pdisj_union_l|].
    assert (Hheld : held_by G = holds v ⊎ held_by (delete h G)) by by apply held_by_delete.
    split.
    { exists (delete h G). split; [|split].
      - revert Hb. apply big_sep_refs. intros h' v' Hs'. unfold refs. rewrite Hheld. unfold X0. rewrite !multiplicity_disj_union multiplicity_singleton_ne; [lia|]. unfold t. intros [= -> ->]. by rewrite lookup_delete in Hs'.
      - intros h' v' Hin. assert ((h', v') ∈ X0 ⊎ held_by G) as Hin2. { rewrite Hheld. unfold X0. multiset_solver. }
        specialize (HV _ _ Hin2). rewrite lookup_delete_ne //. intros <-. assert (v' = v) as -> by by apply Hun.
        rewrite elem_of_multiplicity in Hin. fold t in Hin. rewrite Hheld in Hone. unfold X0 in Hone. rewrite !multiplicity_disj_union multiplicity_singleton in Hone. rewrite !multiplicity_disj_union in Hin. lia.
      - intros h' v' Hs'. assert (h' <> h) as Hne. { intros ->. by rewrite lookup_delete in Hs'. } rewrite lookup_delete_ne // in Hs'. specialize (HC _ _ Hs'). unfold refs in HC |- *.
        rewrite Hheld in HC. unfold X0 in HC. rewrite !multiplicity_disj_union multiplicity_singleton_ne in HC; [|unfold t; congruence]. rewrite !multiplicity_disj_union. lia. }
    rewrite -!punion_assoc. rewrite -!punion_assoc in Hmem, Hobj. split; [done|]. split; [done|]. split; [lia|].
    specialize (H2 x 0 true (fails s') sempty (sdisj_empty_r _)). rewrite sunion_empty_r in H2. rewrite sunion_comm //. apply H2; [|by apply pdisj_sym|].
    { split; [done|]. split; [lia|]. done. }
    exists (Share p'' ∅), (Share pempty (holds v)). unfold sunion, sdisj. cbn [spiece stoks]. rewrite punion_empty_r left_id_L. split; [done|]. split; [apply pdisj_empty_r|]. done.
  - set (J := list_to_set_disj (replicate j t) : gmultiset T).
    assert (multiplicity t J = j) as HJ. { clear. unfold J. induction j as [|j IH]; simpl; [apply multiplicity_empty|]. rewrite multiplicity_disj_union multiplicity_singleton IH. lia. }
    assert (forall t', t' <> t -> multiplicity t' J = 0) as HJ'. { clear. unfold J. intros t' Hne. induction j as [|j IH]; simpl; [apply multiplicity_empty|]. rewrite multiplicity_disj_union multiplicity_singleton_ne // IH. }
    assert (forall t', t' <> t -> multiplicity t' (J ⊎ stoks r2 ⊎ stoks fr ⊎ held_by G) = multiplicity t' (X0 ⊎ held_by G)) as Hoth.
    { intros t' Hne. unfold X0. rewrite !multiplicity_disj_union HJ' // multiplicity_singleton_ne //. }
    assert (multiplicity t (J ⊎ stoks r2 ⊎ stoks fr ⊎ held_by G) = n') as Hthis.
    { unfold refs in Hn. fold t in Hn. unfold X0 in Hn. rewrite !multiplicity_disj_union multiplicity_singleton in Hn. rewrite !multiplicity_disj_union HJ. lia. }
    exists x, s', (sunion (Share pempty J) r2), (punion p'' sh2). split; [done|]. split; [by apply sdisj_union_l; split; [apply sdisj_empty_l|]|]. cbn [spiece stoks sunion]. fold p.
    split; [apply pdisj_union_r; split; [by apply pdisj_sym|done]|]. split.
    { exists G. split; [|split].
      - eapply holds_mono; [rewrite (big_sepM_delete _ _ _ _ Hs) //|]. exists p'', sh2. split; [done|]. split; [done|]. split.
        + unfold refs. fold t. by rewrite Hthis.
        + revert Hb. apply big_sep_refs. intros h' v' Hs'. unfold refs. rewrite Hoth //. unfold t. intros [= -> ->]. by rewrite lookup_delete in Hs'.
      - intros h' v' Hin. destruct (decide ((h', v') = t)) as [[= -> ->]|Hne]; [done|]. apply HV. rewrite elem_of_multiplicity. rewrite elem_of_multiplicity in Hin. by rewrite -Hoth.
      - intros h' v' Hs'. destruct (decide ((h', v') = t)) as [[= -> ->]|Hne]; unfold refs; [fold t; rewrite Hthis; lia|]. rewrite Hoth //. by apply HC. }
    replace (punion p (punion p'' sh2)) with (punion p'' (punion p sh2)). 2:{ by apply punion_swap. }
    split; [done|]. split; [done|]. split; [lia|]. rewrite bool_decide_eq_false_2 // in Hφ.
    specialize (H2 x j false (fails s') sempty (sdisj_empty_r _)). rewrite sunion_empty_r in H2. rewrite sunion_comm //. apply H2; [|apply sdisj_empty_r|done].
    split; [done|]. split; [lia|]. done.
Qed.
End rc.
