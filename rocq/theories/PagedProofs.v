(** Proofs about PagedModel.v. *)
From Verif Require Import SepAll.
From Verif Require Import Common Block CMem PagedModel PagedSpec.
Local Open Scope Z_scope.
Local Open Scope cmonad_scope.

Lemma u64_small z : is_u64 z -> u64 z = z.
Proof. intros. apply Z.mod_small. unfold is_u64, UINT64_MOD, UINT64_MAX in *. lia. Qed.
(** Bits of the bitmap. *)
Definition bit (bytes : list Z) (j : Z) : bool := match bytes !! Z.to_nat (j / 8) with Some b => Z.testbit b (j mod 8) | None => false end.
Lemma land_bit b k : 0 <= k -> negb (Z.land b (Z.shiftl 1 k) =? 0) = Z.testbit b k.
Proof.
  intros Hk. rewrite Z.shiftl_1_l. destruct (Z.testbit b k) eqn:E.
  - destruct (Z.eqb_spec (Z.land b (2 ^ k)) 0) as [H|]; [|done]. exfalso. assert (Z.testbit (Z.land b (2 ^ k)) k = false) as H2 by (rewrite H; apply Z.bits_0).
    rewrite Z.land_spec E Z.pow2_bits_true // in H2.
  - assert (Z.land b (2 ^ k) = 0) as ->; [|done]. apply Z.bits_inj'. intros m Hm. rewrite Z.land_spec Z.bits_0 Z.pow2_bits_eqb //.
    destruct (Z.eqb_spec k m) as [->|]; [by rewrite E|by rewrite andb_false_r].
Qed.
Lemma u8_bit z k : 0 <= k < 8 -> Z.testbit (u8 z) k = Z.testbit z k.
Proof. intros Hk. unfold u8. change 256 with (2 ^ 8). rewrite Z.mod_pow2_bits_low; [done|lia]. Qed.
Definition upd (bytes : list Z) (j : Z) (b : Z) : list Z := <[Z.to_nat (j / 8) := u8 b]> bytes.
Lemma bit_upd bytes j b b' (v : bool) : 0 <= j -> bytes !! Z.to_nat (j / 8) = Some b ->
  (forall k, 0 <= k < 8 -> Z.testbit b' k = if decide (k = j mod 8) then v else Z.testbit b k) ->
  forall i, 0 <= i -> bit (upd bytes j b') i = if decide (i = j) then v else bit bytes i.
Proof.
  intros Hj Hb Hv i Hi. unfold bit, upd. assert (0 <= j mod 8 < 8 /\ 0 <= i mod 8 < 8) as [? ?] by (split; apply Z.mod_pos_bound; lia).
  pose proof (Z.div_mod i 8 ltac:(lia)). pose proof (Z.div_mod j 8 ltac:(lia)). pose proof (Z.div_pos j 8 Hj ltac:(lia)). pose proof (Z.div_pos i 8 Hi ltac:(lia)).
  destruct (decide (i / 8 = j / 8)) as [E|E].
  - rewrite E list_lookup_insert; last by eapply lookup_lt_Some. rewrite Hb u8_bit // Hv //. destruct (decide (i mod 8 = j mod 8)), (decide (i = j)); try done; exfalso; lia.
  - rewrite list_lookup_insert_ne; last lia. destruct (decide (i = j)); [congruence|done].
Qed.
Lemma bit_set bytes j b : 0 <= j -> bytes !! Z.to_nat (j / 8) = Some b ->
  forall i, 0 <= i -> bit (upd bytes j (Z.lor b (Z.shiftl 1 (j mod 8)))) i = if decide (i = j) then true else bit bytes i.
Proof.
  intros Hj Hb. apply (bit_upd _ _ b); [done..|]. intros k Hk. rewrite Z.lor_spec Z.shiftl_1_l. pose proof (Z.mod_pos_bound j 8 ltac:(lia)). rewrite Z.pow2_bits_eqb; last lia.
  destruct (decide _) as [->|]; [by rewrite Z.eqb_refl orb_true_r|]. destruct (Z.eqb_spec (j mod 8) k); [congruence|by rewrite orb_false_r].
Qed.
Lemma bit_clear bytes j b : 0 <= j -> bytes !! Z.to_nat (j / 8) = Some b ->
  forall i, 0 <= i -> bit (upd bytes j (Z.land b (Z.lnot (Z.shiftl 1 (j mod 8))))) i = if decide (i = j) then false else bit bytes i.
Proof.
  intros Hj Hb. apply (bit_upd _ _ b); [done..|]. intros k Hk. pose proof (Z.mod_pos_bound j 8 ltac:(lia)). rewrite Z.land_spec Z.lnot_spec; last lia. rewrite Z.shiftl_1_l Z.pow2_bits_eqb; last lia.
  destruct (decide _) as [->|]; [by rewrite Z.eqb_refl andb_false_r|]. destruct (Z.eqb_spec (j mod 8) k); [congruence|by rewrite andb_true_r].
Qed.

(** The number of set bits. *)
Fixpoint count (f : Z -> bool) (n : nat) : nat := match n with O => 0 | S n => (if f (Z.of_nat n) then 1 else 0) + count f n end%nat.
Lemma count_ext f g n : (forall i, 0 <= i < Z.of_nat n -> f i = g i) -> count f n = count g n.
Proof. induction n as [|n IH]; intros H; simpl; [done|]. rewrite H; [|lia]. rewrite IH; [done|]. intros. apply H. lia. Qed.
Lemma count_upd f g j n : 0 <= j < Z.of_nat n -> f j = false -> (forall i, 0 <= i -> g i = if decide (i = j) then true else f i) -> count g n = S (count f n).
Proof.
  intros Hj Hf Hg. induction n as [|n IH]; simpl; [lia|]. rewrite (Hg (Z.of_nat n)); last lia. destruct (decide (Z.of_nat n = j)) as [E|E].
  - rewrite E Hf (count_ext g f); [lia|]. intros i Hi. rewrite Hg; last lia. rewrite decide_False //. lia.
  - rewrite IH; lia.
Qed.
Lemma count_zero f n : count f n = 0%nat -> forall i, 0 <= i < Z.of_nat n -> f i = false.
Proof.
  induction n as [|n IH]; simpl; intros H i Hi; [lia|]. destruct (decide (i = Z.of_nat n)) as [->|]; [by destruct (f _)|]. apply IH; lia.
Qed.
Lemma count_le f n : (count f n <= n)%nat.
Proof. induction n as [|n IH]; simpl; [lia|]. destruct (f _); lia. Qed.
Lemma count_pos f n : (0 < count f n)%nat -> exists i, 0 <= i < Z.of_nat n /\ f i = true.
Proof.
  induction n as [|n IH]; simpl; intros H; [lia|]. destruct (f (Z.of_nat n)) eqn:E; [exists (Z.of_nat n); split; [lia|done]|]. destruct IH as (i&?&?); [lia|]. exists i. split; [lia|done].
Qed.
Lemma count_size (X : gset Z) n : (forall k, k ∈ X -> 0 <= k < Z.of_nat n) -> size X = count (fun k => bool_decide (k ∈ X)) n.
Proof.
  revert X. induction n as [|n IH]; intros X HX; simpl.
  - assert (X = ∅) as ->; [|done]. apply set_eq. intros x. split; [intros Hx; specialize (HX _ Hx); lia|set_solver].
  - case_bool_decide as Hn.
    + rewrite (union_difference_singleton_L (Z.of_nat n) X Hn) size_union; last set_solver. rewrite size_singleton. f_equal. rewrite (IH (X ∖ {[Z.of_nat n]})).
      * apply count_ext. intros i Hi. apply bool_decide_ext. set_unfold. split; [naive_solver|]. intros [?|?]; [lia|done].
      * intros k Hk. apply elem_of_difference in Hk as [Hk1 Hk2]. specialize (HX _ Hk1). rewrite elem_of_singleton in Hk2. lia.
    + apply IH. intros k Hk. assert (k <> Z.of_nat n) by congruence. specialize (HX _ Hk). lia.
Qed.

Notation iP := (hPropI obj).
Section proofs.
Context (hdr szT : Z) (HszT : 1 <= szT).
Definition npages (t : paged) : Z := (amax t + apage t - 1) / apage t.
Definition ok (t : paged) : Prop :=
  0 < amax t /\ 0 < apage t /\ amax t + apage t - 1 <= UINT64_MAX /\ page_bytes szT (apage t) <= UINT64_MAX /\ forall i, is_Some (cells t !! i) -> 0 <= i < amax t.
(** Page k of t, at q; perhaps empty. *)
Definition page_ok (t : paged) (k : Z) (q : positive) (its : list (option Z)) (bytes : list Z) (n : Z) : Prop :=
  length its = Z.to_nat (apage t) /\ length bytes = Z.to_nat ((apage t + 7) / 8) /\
  (forall j, 0 <= j < apage t -> cells t !! (k * apage t + j) = if bit bytes j then Some (Cell (q, j) (its !!! Z.to_nat j)) else None) /\
  n = Z.of_nat (count (bit bytes) (Z.to_nat (apage t))).
Definition page_free (t : paged) (k : Z) : Prop := forall j, 0 <= j < apage t -> cells t !! (k * apage t + j) = None.
Notation page_obj its bytes n := (OPage (Page its (Some <$> bytes) (Some n))).
Definition page_at (t : paged) (k : Z) (p : ptr) : iP :=
  match p with
  | None => ⌈page_free t k⌉
  | Some q => ∃ its bytes n, q ↦o page_obj its bytes n ∗ ⌈page_ok t k q its bytes n /\ 0 < n⌉
  end%I.
Definition pages_at (t : paged) (ps : list ptr) : iP := ([∗ list] k ↦ p ∈ ps, page_at t (Z.of_nat k) p)%I.
Notation paged_obj t ps := (OPaged (PData (amax t) (apage t) (npages t) (adispose t) (Some <$> ps))).
Definition is_p (h : positive) (t : paged) : iP := (∃ ps, h ↦o paged_obj t ps ∗ pages_at t ps ∗ ⌈ok t /\ Z.of_nat (length ps) = npages t⌉)%I.
Notation all := (all_of is_p).
Lemma is_p_excl h t t' : is_p h t -∗ is_p h t' -∗ False.
Proof. iIntros "(%&H1&_) (%&H2&_)". iDestruct (obj_ne with "H1 H2") as %[]. done. Qed.

(** The basic operations. *)
Lemma wpi_get_p h t f (Q : pdata -> nat -> iP) : h ↦o OPaged t -∗ (h ↦o OPaged t -∗ Q t f) -∗ wpi (get_p h) f Q.
Proof. iIntros "H1 H2". iApply wpi_bind. iApply (wpi_get_obj with "H1"). iIntros "H1". iApply wpi_ret. by iApply "H2". Qed.
Lemma wpi_set_p h t t' f (Q : unit -> nat -> iP) : h ↦o OPaged t -∗ (h ↦o OPaged t' -∗ Q tt f) -∗ wpi (set_p h t') f Q.
Proof. iIntros "H1 H2". iApply wpi_bind. iApply (wpi_get_p with "H1"). iIntros "H1". by iApply (wpi_set_obj with "H1"). Qed.
Lemma wpi_free_p h t f (Q : unit -> nat -> iP) : h ↦o OPaged t -∗ Q tt f -∗ wpi (free_p h) f Q.
Proof. iIntros "H1 H2". iApply wpi_bind. iApply (wpi_get_p with "H1"). iIntros "H1". by iApply (wpi_free_obj with "H1"). Qed.
Lemma wpi_get_page h t f (Q : page -> nat -> iP) : h ↦o OPage t -∗ (h ↦o OPage t -∗ Q t f) -∗ wpi (get_page h) f Q.
Proof. iIntros "H1 H2". iApply wpi_bind. iApply (wpi_get_obj with "H1"). iIntros "H1". iApply wpi_ret. by iApply "H2". Qed.
Lemma wpi_set_page h t t' f (Q : unit -> nat -> iP) : h ↦o OPage t -∗ (h ↦o OPage t' -∗ Q tt f) -∗ wpi (set_page h t') f Q.
Proof. iIntros "H1 H2". iApply wpi_bind. iApply (wpi_get_page with "H1"). iIntros "H1". by iApply (wpi_set_obj with "H1"). Qed.
Lemma wpi_free_page h t f (Q : unit -> nat -> iP) : h ↦o OPage t -∗ Q tt f -∗ wpi (free_page h) f Q.
Proof. iIntros "H1 H2". iApply wpi_bind. iApply (wpi_get_page with "H1"). iIntros "H1". by iApply (wpi_free_obj with "H1"). Qed.
Lemma wpi_slot_get h m s c d ps k p f (Q : ptr -> nat -> iP) : ps !! Z.to_nat k = Some p ->
  h ↦o OPaged (PData m s c d (Some <$> ps)) -∗ (h ↦o OPaged (PData m s c d (Some <$> ps)) -∗ Q p f) -∗ wpi (slot_get h k) f Q.
Proof. iIntros (Hi) "H1 H2". iApply wpi_bind. iApply (wpi_get_p with "H1"). iIntros "H1". simpl. rewrite list_lookup_fmap Hi. simpl. iApply wpi_ret. by iApply "H2". Qed.
Lemma wpi_slot_set h m s c d ps k p f (Q : unit -> nat -> iP) : (Z.to_nat k < length ps)%nat ->
  h ↦o OPaged (PData m s c d ps) -∗ (h ↦o OPaged (PData m s c d (<[Z.to_nat k := Some p]> ps)) -∗ Q tt f) -∗ wpi (slot_set h k p) f Q.
Proof. iIntros (Hi) "H1 H2". iApply wpi_bind. iApply (wpi_get_p with "H1"). iIntros "H1". simpl. rewrite decide_True //. by iApply (wpi_set_p with "H1"). Qed.
Lemma wpi_byte_get q its bytes n i b f (Q : Z -> nat -> iP) : bytes !! Z.to_nat i = Some b ->
  q ↦o page_obj its bytes n -∗ (q ↦o page_obj its bytes n -∗ Q b f) -∗ wpi (byte_get q i) f Q.
Proof. iIntros (Hb) "H1 H2". iApply wpi_bind. iApply (wpi_get_page with "H1"). iIntros "H1". simpl. rewrite list_lookup_fmap Hb. simpl. iApply wpi_ret. by iApply "H2". Qed.
Lemma wpi_byte_set q its bytes n j b f (Q : unit -> nat -> iP) : (Z.to_nat (j / 8) < length bytes)%nat ->
  q ↦o page_obj its bytes n -∗ (q ↦o page_obj its (upd bytes j b) n -∗ Q tt f) -∗ wpi (byte_set q (j / 8) b) f Q.
Proof.
  iIntros (Hb) "H1 H2". iApply wpi_bind. iApply (wpi_get_page with "H1"). iIntros "H1". simpl. rewrite fmap_length decide_True //. iApply (wpi_set_page with "H1").
  unfold upd. by rewrite list_fmap_insert.
Qed.
Lemma byte_at j sz (bytes : list Z) : 0 <= j < sz -> length bytes = Z.to_nat ((sz + 7) / 8) -> exists b, bytes !! Z.to_nat (j / 8) = Some b.
Proof. intros Hj Hl. apply lookup_lt_is_Some_2. rewrite Hl. pose proof (Z.div_le_mono (j + 8) (sz + 7) 8 ltac:(lia) ltac:(lia)). replace (j + 8) with (j + 1 * 8) in * by lia. rewrite Z.div_add in H; lia. Qed.
Lemma wpi_is_allocated q its bytes n j sz f (Q : bool -> nat -> iP) : 0 <= j < sz -> length bytes = Z.to_nat ((sz + 7) / 8) ->
  q ↦o page_obj its bytes n -∗ (q ↦o page_obj its bytes n -∗ Q (bit bytes j) f) -∗ wpi (IS_ALLOCATED q j) f Q.
Proof.
  iIntros (Hj Hl) "H1 H2". destruct (byte_at _ _ _ Hj Hl) as [b Hb]. iApply wpi_bind. iApply (wpi_byte_get with "H1"); [done|]. iIntros "H1". iApply wpi_ret.
  rewrite land_bit; last (apply Z.mod_pos_bound; lia). unfold bit. rewrite Hb. by iApply "H2".
Qed.
Lemma wpi_count_get q its bytes n f (Q : Z -> nat -> iP) : q ↦o page_obj its bytes n -∗ (q ↦o page_obj its bytes n -∗ Q n f) -∗ wpi (count_get q) f Q.
Proof. iIntros "H1 H2". iApply wpi_bind. iApply (wpi_get_page with "H1"). iIntros "H1". simpl. iApply wpi_ret. by iApply "H2". Qed.
Lemma wpi_count_set q its bytes n n' f (Q : unit -> nat -> iP) : is_u64 n' -> q ↦o OPage (Page its bytes n) -∗ (q ↦o OPage (Page its bytes (Some n')) -∗ Q tt f) -∗ wpi (count_set q n') f Q.
Proof. iIntros (Hn) "H1 H2". iApply wpi_bind. iApply (wpi_get_page with "H1"). iIntros "H1". simpl. rewrite u64_small //. by iApply (wpi_set_page with "H1"). Qed.
Lemma wpi_item_at q its bytes n j f (Q : cell -> nat -> iP) : (Z.to_nat j < length its)%nat ->
  q ↦o OPage (Page its bytes n) -∗ (q ↦o OPage (Page its bytes n) -∗ Q (Cell (q, j) (its !!! Z.to_nat j)) f) -∗ wpi (item_at q j) f Q.
Proof. iIntros (Hj) "H1 H2". iApply wpi_bind. iApply (wpi_get_page with "H1"). iIntros "H1". simpl. rewrite (list_lookup_lookup_total_lt its) //. iApply wpi_ret. by iApply "H2". Qed.

(** Indices and pages. *)
Lemma split_index i sz : 0 < sz -> i = i / sz * sz + i mod sz.
Proof. intros. rewrite Z.mul_comm. by apply Z.div_mod; lia. Qed.
Lemma join_index k j sz : 0 <= j < sz -> (k * sz + j) / sz = k /\ (k * sz + j) mod sz = j.
Proof. intros. split; [by rewrite Z.div_add_l; [rewrite Z.div_small; lia|lia]|rewrite Z.add_comm Z.mod_add; [by apply Z.mod_small|lia]]. Qed.
Lemma index_page i t : ok t -> 0 <= i < amax t -> 0 <= i / apage t < npages t.
Proof.
  intros (?&?&_) Hi. split; [apply Z.div_pos; lia|]. unfold npages. apply Z.div_lt_upper_bound; [done|].
  pose proof (Z.div_mod (amax t + apage t - 1) (apage t) ltac:(lia)). pose proof (Z.mod_pos_bound (amax t + apage t - 1) (apage t) ltac:(done)). lia.
Qed.
(** Opening one array at one of its pages. *)
Lemma pages_open t ps k p : ps !! Z.to_nat k = Some p -> 0 <= k ->
  pages_at t ps ⊢ page_at t k p ∗ ∀ p' t', ⌈0 < apage t /\ apage t' = apage t /\ forall i, i / apage t <> k -> cells t' !! i = cells t !! i⌉ -∗ page_at t' k p' -∗ pages_at t' (<[Z.to_nat k := p']> ps).
Proof.
  intros Hp Hi. iIntros "H". unfold pages_at. rewrite -{1}(take_drop_middle _ _ _ Hp) big_sepL_app big_sepL_cons. iDestruct "H" as "(H1&H2&H3)".
  assert (length (take (Z.to_nat k) ps) = Z.to_nat k) as El. { rewrite take_length. apply lookup_lt_Some in Hp. lia. }
  rewrite El Nat.add_0_r Z2Nat.id //. iFrame "H2". iIntros (p' t' (Hpos&Ha&Hc)) "H2".
  rewrite insert_take_drop; last by eapply lookup_lt_Some. rewrite big_sepL_app big_sepL_cons El Nat.add_0_r Z2Nat.id //. iFrame "H2".
  assert (forall (k' : Z) p, k' <> k -> page_at t k' p ⊢ page_at t' k' p) as Hother.
  { intros k' q Hne. assert (forall j, 0 <= j < apage t -> cells t' !! (k' * apage t' + j) = cells t !! (k' * apage t + j)) as Hx.
    { intros j Hj. rewrite Ha. apply Hc. by rewrite (proj1 (join_index k' j _ Hj)). }
    destruct q as [q|]; simpl.
    - iIntros "(%its&%bytes&%n&Hq&%H)". iExists its, bytes, n. iFrame. iPureIntro. destruct H as ((H1&H2&H3&H4)&H5). unfold page_ok. rewrite Ha. split_and!; try done.
      intros j Hj. rewrite -H3 //. rewrite -Hx // Ha //.
    - iIntros "%H". iPureIntro. intros j Hj. rewrite Ha in Hj. rewrite Hx // H //. }
  iSplitL "H1".
  - iApply (big_sepL_mono with "H1"). intros i q Hq. apply Hother. apply lookup_lt_Some in Hq. lia.
  - iApply (big_sepL_mono with "H3"). intros i q Hq. apply Hother. lia.
Qed.
Lemma with_same t : with_cells t (cells t) = t.
Proof. by destruct t. Qed.
Lemma all_open_page a h t i : a !! h = Some t -> 0 <= i < amax t ->
  all a ⊢ ∃ ps p, h ↦o paged_obj t ps ∗ page_at t (i / apage t) p ∗ ⌈ps !! Z.to_nat (i / apage t) = Some p /\ ok t⌉ ∗
    (∀ p' m, ⌈(forall i', i' / apage t <> i / apage t -> m !! i' = cells t !! i') /\ (forall i', is_Some (m !! i') -> 0 <= i' < amax t)⌉ -∗
       h ↦o paged_obj t (<[Z.to_nat (i / apage t) := p']> ps) -∗ page_at (with_cells t m) (i / apage t) p' -∗ all (<[h := with_cells t m]> a)).
Proof.
  intros Ht Hi. iIntros "Ha". iDestruct (all_open _ _ _ _ Ht with "Ha") as "[(%ps&Hh&Hr&%Hok&%Hl) Ha]". pose proof (index_page i t Hok Hi) as Hk.
  destruct (lookup_lt_is_Some_2 ps (Z.to_nat (i / apage t))) as [p Hp]; [lia|]. iDestruct (pages_open t ps (i / apage t) p Hp with "Hr") as "[Hp Hr]"; [lia|].
  iExists ps, p. iFrame "Hh Hp". iSplitR; [done|]. destruct Hok as (?&?&?&?&?).
  iIntros (p' m [Hm1 Hm2]) "Hh Hp". iApply "Ha". iExists (<[Z.to_nat (i / apage t) := p']> ps). simpl. iSplitL "Hh"; [done|].
  iSplitL; [iApply ("Hr" with "[] Hp"); iPureIntro; by split_and!|]. iPureIntro. rewrite insert_length. split; [by split_and!|done].
Qed.
Lemma all_close_same a h t i ps p : a !! h = Some t -> ps !! Z.to_nat (i / apage t) = Some p -> ok t ->
  (∀ p' m, ⌈(forall i', i' / apage t <> i / apage t -> m !! i' = cells t !! i') /\ (forall i', is_Some (m !! i') -> 0 <= i' < amax t)⌉ -∗
       h ↦o paged_obj t (<[Z.to_nat (i / apage t) := p']> ps) -∗ page_at (with_cells t m) (i / apage t) p' -∗ all (<[h := with_cells t m]> a)) -∗
  h ↦o paged_obj t ps -∗ page_at t (i / apage t) p -∗ all a.
Proof.
  iIntros (Ht Hp (_&_&_&_&Hok)) "H Hh Hp". iSpecialize ("H" $! p (cells t) with "[]"); [done|]. rewrite (list_insert_id ps) // with_same (insert_id a) //. by iApply ("H" with "Hh Hp").
Qed.
Lemma all_ok a h t : a !! h = Some t -> all a ⊢ ⌜ok t⌝.
Proof. iIntros (Ht) "Ha". iDestruct (all_open _ _ _ _ Ht with "Ha") as "[(%ps&Hh&Hr&%Hok&%Hl) Ha]". done. Qed.

(** A new page. *)
Lemma wpi_allocate_page sz f (Q : ptr -> nat -> iP) : 0 < sz -> page_bytes szT sz <= UINT64_MAX ->
  (∀ q, q ↦o page_obj (replicate (Z.to_nat sz) None) (replicate (Z.to_nat ((sz + 7) / 8)) 0) 0 -∗ Q (Some q) f) ∧
  (∀ f', ⌈(f < f')%nat \/ (f' = f /\ UINT64_MAX < hdr + page_bytes szT sz)⌉ -∗ Q None f') ⊢ wpi (ALLOCATE_PAGE hdr szT sz) f Q.
Proof.
  iIntros (Hsz Hfit) "H". unfold page_bytes in *. assert (1 * 8 <= sz + 7) as H8 by lia. apply (Z.div_le_lower_bound _ 8 1) in H8; [|lia].
  assert (sz * 1 <= sz * szT) by (apply Z.mul_le_mono_nonneg_l; lia). pose proof (Z.div_mod (sz + 7) 8 ltac:(lia)). pose proof (Z.mod_pos_bound (sz + 7) 8 ltac:(lia)).
  assert (BITMAP_SIZE sz = (sz + 7) / 8) as Eb. { unfold BITMAP_SIZE. rewrite u64_small //. unfold is_u64, UINT64_MAX in *. lia. }
  unfold ALLOCATE_PAGE. rewrite Eb. rewrite (u64_small (sz * szT)); [|unfold is_u64; lia]. rewrite (u64_small (_ + _)); [|unfold is_u64; lia].
  unfold size_flex. rewrite Z.mul_1_r. destruct (decide _) as [Hs|Hs].
  2: { iApply wpi_ret. iDestruct "H" as "[_ H]". iApply "H". iPureIntro. right. split; [done|lia]. }
  iApply wpi_bind. iApply wpi_new_obj. iSplit.
  2: { iApply wpi_ret. iDestruct "H" as "[_ H]". iApply "H". iPureIntro. left. lia. }
  iIntros (q) "Hq". rewrite decide_False; last lia. iApply wpi_bind. iApply (wpi_get_page with "Hq"). iIntros "Hq". iApply wpi_bind. iApply (wpi_set_page with "Hq"). iIntros "Hq". simpl.
  iApply wpi_bind. iApply (wpi_count_set with "Hq"); [done|]. iIntros "Hq". iApply wpi_ret. iDestruct "H" as "[H _]". iApply "H". by rewrite fmap_replicate.
Qed.
Lemma bit_zeros n j : bit (replicate n 0) j = false.
Proof. unfold bit. destruct (replicate n 0 !! _) eqn:E; [|done]. apply lookup_replicate in E as [-> _]. apply Z.bits_0. Qed.
Lemma page_ok_new t k q : 0 < apage t -> page_free t k -> page_ok t k q (replicate (Z.to_nat (apage t)) None) (replicate (Z.to_nat ((apage t + 7) / 8)) 0) 0.
Proof.
  intros Ha Hf. split_and!; [by rewrite replicate_length..| |].
  - intros j Hj. rewrite bit_zeros. by apply Hf.
  - rewrite (count_ext _ (fun _ => false)); [|intros; apply bit_zeros]. induction (Z.to_nat (apage t)); [done|]. simpl. done.
Qed.
Definition sized (t : paged) (m : gmap Z cell) (k : Z) : Prop :=
  (forall i', i' / apage t <> k -> m !! i' = cells t !! i') /\ (forall i', is_Some (m !! i') -> 0 <= i' < amax t).
(** Setting and clearing the bit of one element. *)
Lemma page_ok_set t i q its bytes n b : ok t -> page_ok t (i / apage t) q its bytes n -> bit bytes (i mod apage t) = false -> bytes !! Z.to_nat (i mod apage t / 8) = Some b ->
  page_ok (with_cells t (<[i := Cell (q, i mod apage t) (its !!! Z.to_nat (i mod apage t))]> (cells t))) (i / apage t) q its (upd bytes (i mod apage t) (Z.lor b (Z.shiftl 1 (i mod apage t mod 8)))) (n + 1).
Proof.
  intros (_&Hpos&_) (H1&H2&H3&H4) Hb Hbyte. pose proof (Z.mod_pos_bound i (apage t) Hpos) as Hj. set (j := i mod apage t) in *. pose proof (split_index i (apage t) Hpos) as Hi. fold j in Hi.
  pose proof (bit_set bytes j b (proj1 Hj) Hbyte) as Hset. split_and!; simpl; [done|by rewrite /upd insert_length| |].
  - intros j' Hj'. rewrite Hset; [|lia]. destruct (decide (j' = j)) as [->|Hne]; [by rewrite -Hi lookup_insert|]. rewrite lookup_insert_ne; [by apply H3|lia].
  - rewrite (count_upd (bit bytes) _ j); [lia|lia|done|done].
Qed.
Lemma page_ok_clear t i q its bytes n b : ok t -> page_ok t (i / apage t) q its bytes n -> bit bytes (i mod apage t) = true -> bytes !! Z.to_nat (i mod apage t / 8) = Some b ->
  page_ok (with_cells t (delete i (cells t))) (i / apage t) q its (upd bytes (i mod apage t) (Z.land b (Z.lnot (Z.shiftl 1 (i mod apage t mod 8))))) (n - 1).
Proof.
  intros (_&Hpos&_) (H1&H2&H3&H4) Hb Hbyte. pose proof (Z.mod_pos_bound i (apage t) Hpos) as Hj. set (j := i mod apage t) in *. pose proof (split_index i (apage t) Hpos) as Hi. fold j in Hi.
  pose proof (bit_clear bytes j b (proj1 Hj) Hbyte) as Hset. split_and!; simpl; [done|by rewrite /upd insert_length| |].
  - intros j' Hj'. rewrite Hset; [|lia]. destruct (decide (j' = j)) as [->|Hne]; [by rewrite -Hi lookup_delete|]. rewrite lookup_delete_ne; [by apply H3|lia].
  - set (bytes' := upd _ _ _) in *. rewrite H4 (count_upd (bit bytes') (bit bytes) j); [lia|lia| |].
    + rewrite Hset; [|lia]. by rewrite decide_True.
    + intros i' Hi'. rewrite Hset //. destruct (decide (i' = j)) as [->|]; [by rewrite Hb|done].
Qed.
Lemma wpi_set_allocated q its bytes n j b f (Q : unit -> nat -> iP) : bytes !! Z.to_nat (j / 8) = Some b ->
  q ↦o page_obj its bytes n -∗ (q ↦o page_obj its (upd bytes j (Z.lor b (Z.shiftl 1 (j mod 8)))) n -∗ Q tt f) -∗ wpi (SET_ALLOCATED q j) f Q.
Proof.
  iIntros (Hb) "H1 H2". iApply wpi_bind. iApply (wpi_byte_get with "H1"); [done|]. iIntros "H1". iApply (wpi_byte_set with "H1 H2"). by eapply lookup_lt_Some.
Qed.
Lemma wpi_clear_allocated q its bytes n j b f (Q : unit -> nat -> iP) : bytes !! Z.to_nat (j / 8) = Some b ->
  q ↦o page_obj its bytes n -∗ (q ↦o page_obj its (upd bytes j (Z.land b (Z.lnot (Z.shiftl 1 (j mod 8))))) n -∗ Q tt f) -∗ wpi (CLEAR_ALLOCATED q j) f Q.
Proof.
  iIntros (Hb) "H1 H2". iApply wpi_bind. iApply (wpi_byte_get with "H1"); [done|]. iIntros "H1". iApply (wpi_byte_set with "H1 H2"). by eapply lookup_lt_Some.
Qed.
Lemma page_count_u64 t k q its bytes n : ok t -> page_ok t k q its bytes n -> 0 <= n <= apage t /\ apage t <= UINT64_MAX.
Proof. intros (?&?&?&_) (_&_&_&->). pose proof (count_le (bit bytes) (Z.to_nat (apage t))). lia. Qed.
Lemma cell_of t i q its bytes n : ok t -> page_ok t (i / apage t) q its bytes n ->
  cells t !! i = if bit bytes (i mod apage t) then Some (Cell (q, i mod apage t) (its !!! Z.to_nat (i mod apage t))) else None.
Proof. intros (_&Hpos&_) (_&_&H3&_). rewrite {1}(split_index i (apage t) Hpos). apply H3. by apply Z.mod_pos_bound. Qed.

Definition post (o : op) (a : arrays) (f : nat) (r : res) (f' : nat) (a' : arrays) : Prop :=
  effect o a r a' \/ (((f < f')%nat \/ too_big hdr szT o a) /\ failed o a r a').
Definition goal (o : op) (a : arrays) (f : nat) : iP := wpi (run hdr szT o) f (fun r f' => ∃ a', ⌈post o a f r f' a'⌉ ∗ all a')%I.
Ltac stay a := iApply wpi_ret; iApply wpi_ret; iExists a; iFrame; iPureIntro.
Definition closer (a : arrays) (h : positive) (t : paged) (i : Z) (ps : list ptr) : iP :=
  (∀ p' m, ⌈sized t m (i / apage t)⌉ -∗ h ↦o paged_obj t (<[Z.to_nat (i / apage t) := p']> ps) -∗ page_at (with_cells t m) (i / apage t) p' -∗ all (<[h := with_cells t m]> a))%I.

Lemma wpi_allocate_item a h t i ps q its bytes n f : a !! h = Some t -> ok t -> 0 <= i < amax t -> page_ok t (i / apage t) q its bytes n ->
  h ↦o paged_obj t (<[Z.to_nat (i / apage t) := Some q]> ps) -∗ q ↦o page_obj its bytes n -∗
    ((⌈bit bytes (i mod apage t) = true⌉ -∗ h ↦o paged_obj t (<[Z.to_nat (i / apage t) := Some q]> ps) -∗ q ↦o page_obj its bytes n -∗ all a) ∧ closer a h t i ps) -∗
    wpi (allocate_item q (i mod apage t)) f (fun x f' => wpi (ret (RAllocate x.1 x.2)) f' (fun r f' => ∃ a', ⌈effect (Allocate (Some h) i true) a r a'⌉ ∗ all a')%I).
Proof.
  iIntros (Ht Hok Hi Hpg) "Hh Hq Hc". pose proof Hok as (Hm0&Ha0&Hma&Hpb&Hin). pose proof (Z.mod_pos_bound i (apage t) Ha0) as Hj.
  pose proof (cell_of _ _ _ _ _ _ Hok Hpg) as Hcell. pose proof (page_count_u64 _ _ _ _ _ _ Hok Hpg) as [Hn Hau]. pose proof Hpg as (Hp1&Hp2&Hp3&Hp4).
  iApply wpi_bind. iApply (wpi_is_allocated with "Hq"); [exact Hj|done|]. iIntros "Hq". destruct (bit bytes (i mod apage t)) eqn:Eb.
  - iDestruct "Hc" as "[Hc _]". iApply wpi_ret. iApply wpi_ret. iExists a. iSplitR; [|by iApply ("Hc" with "[] Hh Hq")]. iPureIntro. exists t. split; [done|]. rewrite decide_True //; last lia. rewrite Hcell //.
  - iDestruct "Hc" as "[_ Hc]". destruct (byte_at _ _ _ Hj Hp2) as [b Hb]. iApply wpi_bind. iApply (wpi_set_allocated with "Hq"); [done|]. iIntros "Hq".
    iApply wpi_bind. iApply (wpi_count_get with "Hq"). iIntros "Hq".
    pose proof (page_ok_set t i q its bytes n b Hok Hpg Eb Hb) as Hset. pose proof Hset as (_&_&_&Hn1). pose proof (count_le (bit (upd bytes (i mod apage t) (Z.lor b (Z.shiftl 1 (i mod apage t mod 8))))) (Z.to_nat (apage t))). simpl in Hn1.
    iApply wpi_bind. iApply (wpi_count_set with "Hq"); [unfold is_u64; lia|]. iIntros "Hq". iApply wpi_ret. iApply wpi_ret.
    iExists _. iSplitR; [iPureIntro; exists t; split; [done|]; rewrite decide_True //; [|lia]; rewrite Hcell; by eexists _, _|].
    iApply ("Hc" with "[] Hh").
    + iPureIntro. split; [intros i' Hi'; rewrite lookup_insert_ne //; congruence|]. intros i' [? H']. destruct (decide (i' = i)) as [->|]; [lia|]. rewrite lookup_insert_ne // in H'. apply Hin. eauto.
    + iExists its, _, (n + 1). iFrame "Hq". iPureIntro. split; [done|lia].
Qed.
Lemma step_allocate h i out a f : allowed szT a (Allocate h i out) -> all a ⊢ goal (Allocate h i out) a f.
Proof.
  intros [Hl Hi]. iIntros "Ha". iApply wpi_bind. destruct h as [h|]; [|by stay a; left].
  destruct Hl as [t Ht]. unfold PAGED_SPARSE_ARRAY_ALLOCATE. destruct out; simpl; [|by stay a; left].
  destruct (decide (i < amax t)) as [Hlt|Hge].
  2: { iDestruct (all_open _ _ _ _ Ht with "Ha") as "[(%ps&Hh&Hr&%Hok) Ha]". iApply wpi_bind. iApply (wpi_get_p with "Hh"). iIntros "Hh". simpl.
    destruct (Z.leb_spec (amax t) i); [|lia]. iSpecialize ("Ha" $! t with "[Hh Hr]"); [iExists ps; by iFrame|]. rewrite insert_id //.
    stay a. left. simpl. exists t. split; [done|]. rewrite decide_False //. }
  unfold is_u64 in Hi. iDestruct (all_open_page _ _ _ i Ht with "Ha") as (ps p) "(Hh&Hp&%Hx&Ha)"; [lia|]. destruct Hx as [Hp Hok]. pose proof Hok as (Hm0&Ha0&Hma&Hpb&Hin).
  pose proof (Z.mod_pos_bound i (apage t) Ha0) as Hj.
  iApply wpi_bind. iApply (wpi_get_p with "Hh"). iIntros "Hh". simpl. destruct (Z.leb_spec (amax t) i); [lia|].
  iApply wpi_bind. iApply (wpi_slot_get with "Hh"); [done|]. iIntros "Hh". iApply wpi_bind. destruct p as [q|].
  - iApply wpi_ret. iDestruct "Hp" as (its bytes n) "[Hq %Hpg]". destruct Hpg as [Hpg Hn].
    iApply (wpi_wand with "[-]"). { iApply (wpi_allocate_item with "[Hh] Hq [Ha]"); [done|done|lia|done|by rewrite list_insert_id|]. iSplit; [|iExact "Ha"].
      iIntros "%Eb Hh Hq". iApply (all_close_same with "Ha [Hh]"); [done..|by rewrite list_insert_id|]. iExists its, bytes, n. by iFrame. }
    iIntros (x f') "% H". iApply (wpi_wand with "H"). iIntros (r f'') "% (%a'&%He&Ha)". iExists a'. iFrame. iPureIntro. by left.
  - iDestruct "Hp" as %Hfree. iApply wpi_bind. iApply wpi_allocate_page; [done..|]. iSplit.
    + iIntros (q) "Hq". iApply wpi_bind. iApply (wpi_slot_set with "Hh"); [rewrite fmap_length; by eapply lookup_lt_Some|]. iIntros "Hh". iApply wpi_ret.
      iApply (wpi_wand with "[-]"). { iApply (wpi_allocate_item with "[Hh] Hq [Ha]"); [done|done|lia|by apply page_ok_new|by rewrite list_fmap_insert|]. iSplit; [|iExact "Ha"].
        iIntros "%Eb". by rewrite bit_zeros in Eb. }
      iIntros (x f') "% H". iApply (wpi_wand with "H"). iIntros (r f'') "% (%a'&%He&Ha)". iExists a'. iFrame. iPureIntro. by left.
    + iIntros (f' Hf'). iApply wpi_bind. iApply (wpi_slot_set with "Hh"); [rewrite fmap_length; by eapply lookup_lt_Some|]. iIntros "Hh". iApply wpi_ret.
      rewrite (list_insert_id (Some <$> ps)); last by rewrite list_lookup_fmap Hp. iDestruct (all_close_same _ _ _ i _ _ Ht Hp Hok with "Ha Hh []") as "Ha"; [done|].
      stay a. right. split; [destruct Hf' as [?|[_ ?]]; [by left|right; simpl; by eauto]|]. split; [|done]. exists t. split_and!; [done..|].
      intros j Ej. rewrite (split_index j (apage t) Ha0) Ej. apply Hfree. by apply Z.mod_pos_bound.
Qed.
Lemma step_release h i a f : allowed szT a (Release h i) -> all a ⊢ goal (Release h i) a f.
Proof.
  intros [Hl Hi]. iIntros "Ha". iApply wpi_bind. destruct h as [h|]; [|by stay a; left].
  destruct Hl as [t Ht]. unfold PAGED_SPARSE_ARRAY_RELEASE. unfold is_u64 in Hi. iDestruct (all_ok _ _ _ Ht with "Ha") as %Hok. pose proof Hok as (Hm0&Ha0&Hma&Hpb&Hin).
  destruct (decide (i < amax t)) as [Hlt|Hge].
  2: { iDestruct (all_open _ _ _ _ Ht with "Ha") as "[(%ps&Hh&Hr&%) Ha]". iApply wpi_bind. iApply (wpi_get_p with "Hh"). iIntros "Hh". simpl.
    destruct (Z.leb_spec (amax t) i); [|lia]. iSpecialize ("Ha" $! t with "[Hh Hr]"); [iExists ps; by iFrame|]. rewrite insert_id //.
    stay a. left. simpl. exists t. split; [done|]. destruct (cells t !! i) eqn:Ei; [|done]. specialize (Hin i ltac:(eauto)). lia. }
  iDestruct (all_open_page _ _ _ i Ht with "Ha") as (ps p) "(Hh&Hp&%Hx&Ha)"; [lia|]. destruct Hx as [Hp _].
  pose proof (Z.mod_pos_bound i (apage t) Ha0) as Hj.
  iApply wpi_bind. iApply (wpi_get_p with "Hh"). iIntros "Hh". simpl. destruct (Z.leb_spec (amax t) i); [lia|].
  iApply wpi_bind. iApply (wpi_slot_get with "Hh"); [done|]. iIntros "Hh". destruct p as [q|].
  2: { iDestruct "Hp" as %Hfree. iDestruct (all_close_same _ _ _ i _ _ Ht Hp Hok with "Ha Hh []") as "Ha"; [done|]. stay a. left. simpl. exists t. split; [done|].
    rewrite (split_index i (apage t) Ha0) Hfree //. }
  iDestruct "Hp" as (its bytes n) "[Hq %Hpg]". destruct Hpg as [Hpg Hn]. pose proof (cell_of _ _ _ _ _ _ Hok Hpg) as Hcell. pose proof (page_count_u64 _ _ _ _ _ _ Hok Hpg) as [Hn' Hau].
  pose proof Hpg as (Hp1&Hp2&Hp3&Hp4).
  iApply wpi_bind. iApply (wpi_is_allocated with "Hq"); [exact Hj|done|]. iIntros "Hq". destruct (bit bytes (i mod apage t)) eqn:Eb; simpl.
  2: { iDestruct (all_close_same _ _ _ i _ _ Ht Hp Hok with "Ha Hh [Hq]") as "Ha"; [iExists its, bytes, n; by iFrame|]. stay a. left. exists t. split; [done|]. rewrite Hcell //. }
  iApply wpi_bind. iApply (wpi_wand _ _ (fun l f' => q ↦o page_obj its bytes n ∗ ⌈f' = f /\ l = if adispose t then [Cell (q, i mod apage t) (its !!! Z.to_nat (i mod apage t))] else []⌉)%I with "[Hq]").
  { destruct (adispose t); [|iApply wpi_ret; by iFrame]. iApply wpi_bind. iApply (wpi_item_at with "Hq"); [lia|]. iIntros "Hq". iApply wpi_ret. by iFrame. }
  iIntros (l f') "_ [Hq %E]". destruct E as [-> ->]. destruct (byte_at _ _ _ Hj Hp2) as [b Hb]. iApply wpi_bind. iApply (wpi_clear_allocated with "Hq"); [done|]. iIntros "Hq".
  pose proof (page_ok_clear t i q its bytes n b Hok Hpg Eb Hb) as Hcl. set (bytes' := upd _ _ _) in *.
  iApply wpi_bind. iApply wpi_bind. iApply (wpi_count_get with "Hq"). iIntros "Hq". iApply (wpi_count_set with "Hq"); [unfold is_u64; lia|]. iIntros "Hq".
  iApply wpi_bind. iApply (wpi_count_get with "Hq"). iIntros "Hq". iApply wpi_bind.
  iApply (wpi_wand _ _ (fun _ f' => ⌈f' = f⌉ ∗ all (<[h := with_cells t (delete i (cells t))]> a))%I with "[-]").
  { assert (sized t (delete i (cells t)) (i / apage t)) as Hsz.
    { split; [intros i' Hi'; rewrite lookup_delete_ne //; congruence|]. intros i' [? H']. apply lookup_delete_Some in H' as [_ H']. eauto. }
    destruct (decide (n - 1 = 0)) as [Hz|Hz].
    - iApply wpi_bind. iApply (wpi_free_page with "Hq"). iApply (wpi_slot_set with "Hh"); [rewrite fmap_length; by eapply lookup_lt_Some|]. iIntros "Hh". iSplitR; [done|].
      iApply ("Ha" $! None with "[] [Hh]"); [done|by rewrite list_fmap_insert|]. iPureIntro. intros j Hj'. destruct Hcl as (_&_&H3&H4). simpl in *. rewrite H3 // (count_zero (bit bytes') (Z.to_nat (apage t))) //; lia.
    - iApply wpi_ret. iSplitR; [done|]. iApply ("Ha" $! (Some q) with "[] [Hh]"); [done|by rewrite (list_insert_id ps)|]. iExists its, bytes', (n - 1). iFrame. iPureIntro. split; [done|lia]. }
  iIntros (? f') "_ [%E Ha]". iApply wpi_ret. iApply wpi_ret. iExists _. iFrame. iPureIntro. left. exists t. split; [done|]. rewrite Hcell //.
Qed.
Lemma step_get h i out a f : allowed szT a (Get h i out) -> all a ⊢ goal (Get h i out) a f.
Proof.
  intros [Hl Hi]. iIntros "Ha". iApply wpi_bind. destruct h as [h|]; [|by stay a; left].
  destruct Hl as [t Ht]. unfold PAGED_SPARSE_ARRAY_GET. destruct out; simpl; [|by stay a; left].
  unfold is_u64 in Hi. iDestruct (all_ok _ _ _ Ht with "Ha") as %Hok. pose proof Hok as (Hm0&Ha0&Hma&Hpb&Hin).
  destruct (decide (i < amax t)) as [Hlt|Hge].
  2: { iDestruct (all_open _ _ _ _ Ht with "Ha") as "[(%ps&Hh&Hr&%) Ha]". iApply wpi_bind. iApply (wpi_get_p with "Hh"). iIntros "Hh". simpl.
    destruct (Z.leb_spec (amax t) i); [|lia]. iSpecialize ("Ha" $! t with "[Hh Hr]"); [iExists ps; by iFrame|]. rewrite insert_id //.
    stay a. left. simpl. exists t. split; [done|]. rewrite decide_False //. }
  iDestruct (all_open_page _ _ _ i Ht with "Ha") as (ps p) "(Hh&Hp&%Hx&Ha)"; [lia|]. destruct Hx as [Hp _].
  pose proof (Z.mod_pos_bound i (apage t) Ha0) as Hj.
  iApply wpi_bind. iApply (wpi_get_p with "Hh"). iIntros "Hh". simpl. destruct (Z.leb_spec (amax t) i); [lia|].
  iApply wpi_bind. iApply (wpi_slot_get with "Hh"); [done|]. iIntros "Hh". destruct p as [q|].
  2: { iDestruct "Hp" as %Hfree. iDestruct (all_close_same _ _ _ i _ _ Ht Hp Hok with "Ha Hh []") as "Ha"; [done|]. stay a. left. simpl. exists t. split; [done|].
    rewrite decide_True // (split_index i (apage t) Ha0) Hfree //. }
  iDestruct "Hp" as (its bytes n) "[Hq %Hpg]". destruct Hpg as [Hpg Hn]. pose proof (cell_of _ _ _ _ _ _ Hok Hpg) as Hcell. pose proof Hpg as (Hp1&Hp2&Hp3&Hp4).
  iApply wpi_bind. iApply (wpi_is_allocated with "Hq"); [exact Hj|done|]. iIntros "Hq".
  iDestruct (all_close_same _ _ _ i _ _ Ht Hp Hok with "Ha Hh [Hq]") as "Ha"; [iExists its, bytes, n; by iFrame|].
  destruct (bit bytes (i mod apage t)) eqn:Eb; simpl; stay a; left; exists t; (split; [done|]); rewrite decide_True // Hcell //.
Qed.
(** Loads and stores. *)
Lemma all_open_cell a h t i c : a !! h = Some t -> cells t !! i = Some c ->
  all a ⊢ ∃ its bytes n, (addr c).1 ↦o page_obj its bytes n ∗ ⌈0 <= (addr c).2 /\ its !! Z.to_nat (addr c).2 = Some (value c)⌉ ∗
    ∀ v, (addr c).1 ↦o page_obj (<[Z.to_nat (addr c).2 := v]> its) bytes n -∗ all (<[h := with_cells t (<[i := Cell (addr c) v]> (cells t))]> a).
Proof.
  iIntros (Ht Hc) "Ha". iDestruct (all_ok _ _ _ Ht with "Ha") as %Hok. pose proof Hok as (Hm0&Ha0&Hma&Hpb&Hin). pose proof (Hin i ltac:(eauto)) as Hi.
  pose proof (Z.mod_pos_bound i (apage t) Ha0) as Hj.
  iDestruct (all_open_page _ _ _ i Ht with "Ha") as (ps p) "(Hh&Hp&%Hx&Ha)"; [lia|]. destruct Hx as [Hp _]. destruct p as [q|].
  2: { iDestruct "Hp" as %Hfree. exfalso. specialize (Hfree _ Hj). rewrite -split_index // Hc // in Hfree. }
  iDestruct "Hp" as (its bytes n) "[Hq %Hpg]". destruct Hpg as [Hpg Hn]. pose proof (cell_of _ _ _ _ _ _ Hok Hpg) as Hcell. destruct (bit bytes (i mod apage t)) eqn:Eb; [|congruence].
  rewrite Hc in Hcell. injection Hcell as ->. simpl. destruct Hpg as (Hp1&Hp2&Hp3&Hp4). iExists its, bytes, n. iFrame "Hq". iSplitR.
  { iPureIntro. split; [lia|]. apply list_lookup_lookup_total_lt. lia. }
  iIntros (v) "Hq". iApply ("Ha" $! (Some q) with "[] [Hh]").
  - iPureIntro. split; [intros i' Hi'; rewrite lookup_insert_ne //; congruence|]. intros i' [? H']. destruct (decide (i' = i)) as [->|]; [lia|]. rewrite lookup_insert_ne // in H'. apply Hin. eauto.
  - by rewrite (list_insert_id ps).
  - iExists _, bytes, n. iFrame "Hq". iPureIntro. split; [|done]. split_and!; simpl; [by rewrite insert_length|done| |done].
    intros j Hj'. pose proof (split_index i (apage t) Ha0). destruct (decide (j = i mod apage t)) as [->|Hne].
    + rewrite -split_index // lookup_insert Eb list_lookup_total_insert //. lia.
    + rewrite lookup_insert_ne; last lia. rewrite Hp3 // list_lookup_total_insert_ne //. lia.
Qed.
Lemma step_load p a f : allowed szT a (Load p) -> all a ⊢ goal (Load p) a f.
Proof.
  intros (h&t&i&c&v&(Ht&Hc&<-)&Hv). iIntros "Ha". iDestruct (all_open_cell _ _ _ _ _ Ht Hc with "Ha") as (its bytes n) "(Hq&%Hx&Ha)". destruct Hx as [Hx1 Hx2].
  iApply wpi_bind. iApply wpi_bind. iApply (wpi_item_at with "Hq"); [by eapply lookup_lt_Some|]. iIntros "Hq". rewrite (list_lookup_total_correct _ _ _ Hx2). simpl. rewrite Hv.
  iSpecialize ("Ha" $! (Some v)). rewrite (list_insert_id its); last by rewrite -Hv. iSpecialize ("Ha" with "Hq").
  rewrite (insert_id (cells t)); last by rewrite -Hv; destruct c. rewrite with_same insert_id //. stay a. left. by exists h, t, i, c, v.
Qed.
Lemma step_store p v a f : allowed szT a (Store p v) -> all a ⊢ goal (Store p v) a f.
Proof.
  intros (h&t&i&c&(Ht&Hc&<-)). iIntros "Ha". iDestruct (all_open_cell _ _ _ _ _ Ht Hc with "Ha") as (its bytes n) "(Hq&%Hx&Ha)". destruct Hx as [Hx1 Hx2].
  iApply wpi_bind. iApply wpi_bind. iApply (wpi_get_page with "Hq"). iIntros "Hq". simpl. rewrite decide_True; last by eapply lookup_lt_Some.
  iApply (wpi_set_page with "Hq"). iIntros "Hq". iSpecialize ("Ha" with "Hq"). iApply wpi_ret. iExists _. iFrame. iPureIntro. left. by exists h, t, i, c.
Qed.

(** Creation. *)
Lemma wpi_clear_pages h m s c d f (Q : unit -> nat -> iP) n : forall (i : nat) ps, length ps = (i + n)%nat ->
  h ↦o OPaged (PData m s c d ps) -∗ (h ↦o OPaged (PData m s c d (take i ps ++ replicate n (Some None))) -∗ Q tt f) -∗ wpi (clear_pages h (Z.of_nat i) n) f Q.
Proof.
  induction n as [|n IH]; intros i ps Hl; iIntros "H1 H2".
  - iApply wpi_ret. rewrite /= app_nil_r firstn_all2; last lia. by iApply "H2".
  - iApply wpi_bind. iApply (wpi_slot_set with "H1"); [lia|]. iIntros "H1". rewrite Nat2Z.id. replace (Z.of_nat i + 1) with (Z.of_nat (S i)) by lia.
    iApply (IH with "H1"); [rewrite insert_length; lia|]. iIntros "H1". iApply "H2".
    assert (take (S i) (<[i := Some None]> ps) = take i ps ++ [Some None]) as ->.
    { erewrite take_S_r; [|apply list_lookup_insert; lia]. rewrite take_insert //. }
    by rewrite -app_assoc.
Qed.
Lemma step_create m p d a f : allowed szT a (Create m p d) -> all a ⊢ goal (Create m p d) a f.
Proof.
  intros (Hm&Hp&Hfit). iIntros "Ha". iApply wpi_bind. unfold PAGED_SPARSE_ARRAY_CREATE. unfold is_u64 in *.
  destruct (decide (bad_sizes m p)) as [Hb|Hb].
  { rewrite decide_True; last first.
    { destruct Hb as [?|[?|Hb]]; [by left|by right; left|]. destruct (decide (p = 0)) as [|Hp0]; [by right; left|]. right; right. rewrite (u64_small (p - 1)); [|unfold is_u64; lia]. rewrite u64_small //. unfold is_u64. lia. }
    stay a. left. simpl. rewrite decide_True //. }
  assert (m <> 0 /\ p <> 0 /\ m + p - 1 <= UINT64_MAX) as (Hm0&Hp0&Hmp). { unfold bad_sizes in Hb. split_and!; [tauto..|]. destruct (decide (UINT64_MAX - (p - 1) < m)); [tauto|lia]. }
  rewrite decide_False.
  2: { rewrite (u64_small (p - 1)); [|unfold is_u64; lia]. rewrite u64_small; [|unfold is_u64; lia]. lia. }
  assert (u64 (u64 (m + p) - 1) = m + p - 1) as ->. { rewrite /u64 Zminus_mod_idemp_l Z.mod_small //. unfold UINT64_MOD, UINT64_MAX in *. lia. }
  assert (0 <= (m + p - 1) / p) as Hc by (apply Z.div_pos; lia).
  unfold size_flex. destruct (decide _) as [Hs|Hs].
  2: { stay a. right. split; [right; simpl; lia|done]. }
  iApply wpi_bind. iApply wpi_new_obj. iSplit.
  2: { stay a. right. split; [left; lia|done]. }
  iIntros (h) "Hh". iApply wpi_bind. iApply (wpi_get_p with "Hh"). iIntros "Hh". iApply wpi_bind. iApply (wpi_set_p with "Hh"). iIntros "Hh". simpl.
  iApply wpi_bind. iApply (wpi_clear_pages _ _ _ _ _ _ _ _ 0%nat with "Hh"); [by rewrite replicate_length|]. iIntros "Hh". simpl. iApply wpi_ret. iApply wpi_ret.
  iAssert (is_p h (Paged m p d ∅)) with "[Hh]" as "Ht".
  { iExists (replicate (Z.to_nat ((m + p - 1) / p)) None). rewrite fmap_replicate. iFrame "Hh". iSplitL.
    - iApply (big_sepL_mono (fun _ _ => emp%I)); [|by rewrite big_sepL_emp]. intros k q Hq. apply lookup_replicate in Hq as [-> _]. iIntros "_". iPureIntro. intros j _. apply lookup_empty.
    - iPureIntro. rewrite replicate_length. split; [|unfold npages; simpl; lia]. split_and!; simpl; [lia..|]. intros i [? H]. by rewrite lookup_empty in H. }
  iDestruct (all_add with "Ht Ha") as (Hn) "Ha"; [apply is_p_excl|]. iExists _. iFrame. iPureIntro. left. simpl. rewrite decide_False //. eauto.
Qed.

(** Disposal: the elements are found in increasing order of index. *)
Definition found (t : paged) (l : list Z) : list cell := omap (fun i => cells t !! i) l.
Lemma wpi_dispose_items t k q its bytes n0 f (Q : list cell -> nat -> iP) n : page_ok t k q its bytes n0 ->
  forall j, 0 <= j -> j + Z.of_nat n = apage t ->
  q ↦o page_obj its bytes n0 -∗ (q ↦o page_obj its bytes n0 -∗ Q (found t (seqZ (k * apage t + j) (Z.of_nat n))) f) -∗ wpi (dispose_items q j n) f Q.
Proof.
  intros Hpg. pose proof Hpg as (Hp1&Hp2&Hp3&Hp4). revert Q. induction n as [|n IH]; intros Q j Hj Hl; iIntros "Hq H".
  - iApply wpi_ret. by iApply "H".
  - iApply wpi_bind. iApply (wpi_is_allocated with "Hq"); [|exact Hp2|]; [lia|]. iIntros "Hq". iApply wpi_bind.
    iApply (wpi_wand _ _ (fun l f' => q ↦o page_obj its bytes n0 ∗ ⌈f' = f /\ l = found t [(k * apage t + j)%Z]⌉)%I with "[Hq]").
    { unfold found. simpl. rewrite Hp3; last lia. destruct (bit bytes j).
      - iApply wpi_bind. iApply (wpi_item_at with "Hq"); [lia|]. iIntros "Hq". iApply wpi_ret. by iFrame.
      - iApply wpi_ret. by iFrame. }
    iIntros (l f') "_ [Hq %E]". destruct E as [-> ->]. iApply wpi_bind. iApply (IH with "Hq"); [lia|lia|]. iIntros "Hq". iApply wpi_ret. iSpecialize ("H" with "Hq").
    rewrite (seqZ_cons _ (Z.of_nat (S n))); last lia. replace (Z.pred (Z.of_nat (S n))) with (Z.of_nat n) by lia. replace (Z.succ (k * apage t + j)) with (k * apage t + (j + 1)) by lia. 
    change (?x :: ?l) with ([x] ++ l). unfold found. rewrite omap_app. iExact "H".
Qed.
Lemma wpi_dispose_pages h t ps f (Q : list cell -> nat -> iP) n : 0 < apage t -> forall i, (i + n = length ps)%nat ->
  h ↦o paged_obj t ps -∗ ([∗ list] k ↦ p ∈ drop i ps, page_at t (Z.of_nat (i + k)) p) -∗
  (h ↦o paged_obj t ps -∗ Q (if adispose t then found t (seqZ (Z.of_nat i * apage t) (Z.of_nat n * apage t)) else []) f) -∗ wpi (dispose_pages h (Z.of_nat i) n) f Q.
Proof.
  intros Ha. revert Q. induction n as [|n IH]; intros Q i Hl; iIntros "H1 Hr H2".
  - rewrite drop_ge; last lia. simpl. iApply wpi_ret. iDestruct "Hr" as "_". iSpecialize ("H2" with "H1"). destruct (adispose t); done.
  - destruct (lookup_lt_is_Some_2 ps i) as [p Hp]; [lia|]. rewrite (drop_S _ _ _ Hp) big_sepL_cons Nat.add_0_r. iDestruct "Hr" as "[Hp Hr]".
    iApply wpi_bind. iApply (wpi_get_p with "H1"). iIntros "H1". simpl. iApply wpi_bind. iApply (wpi_slot_get with "H1"); [by rewrite Nat2Z.id|]. iIntros "H1".
    iApply wpi_bind. iApply (wpi_wand _ _ (fun l f' => ⌈f' = f /\ l = if adispose t then found t (seqZ (Z.of_nat i * apage t) (apage t)) else []⌉)%I with "[Hp]").
    { destruct p as [q|].
      - iDestruct "Hp" as (its bytes n0) "[Hq %Hpg]". destruct Hpg as [Hpg _]. iApply wpi_bind.
        iApply (wpi_wand _ _ (fun l f' => q ↦o page_obj its bytes n0 ∗ ⌈f' = f /\ l = if adispose t then found t (seqZ (Z.of_nat i * apage t) (apage t)) else []⌉)%I with "[Hq]").
        { destruct (adispose t).
          - iApply (wpi_dispose_items with "Hq"); [exact Hpg|lia|lia|]. iIntros "Hq". iFrame. iPureIntro. rewrite Z.add_0_r Z2Nat.id //. lia.
          - iApply wpi_ret. by iFrame. }
        iIntros (l f') "_ [Hq %E]". destruct E as [-> ->]. iApply wpi_bind. iApply (wpi_free_page with "Hq"). iApply wpi_ret. done.
      - iDestruct "Hp" as %Hfree. iApply wpi_ret. iPureIntro. split; [done|]. destruct (adispose t); [|done].
        assert (forall l, (forall x, x ∈ l -> cells t !! x = None) -> found t l = []) as ->; [|done|].
        + intros l. induction l as [|x l IHl]; intros Hx; [done|]. unfold found in *. simpl. rewrite Hx; [|by left]. apply IHl. intros. apply Hx. by right.
        + intros x Hx. apply elem_of_seqZ in Hx. replace x with (Z.of_nat i * apage t + (x - Z.of_nat i * apage t)) by lia. apply Hfree. lia. }
    iIntros (l f') "_ %E". destruct E as [-> ->]. replace (Z.of_nat i + 1) with (Z.of_nat (S i)) by lia. iApply wpi_bind.
    iApply (IH _ (S i) with "H1 [Hr]"); [lia| |]. { iApply (big_sepL_mono with "Hr"). intros k q _. simpl. replace (i + S k)%nat with (S (i + k)) by lia. done. }
    iIntros "H1". iApply wpi_ret. iSpecialize ("H2" with "H1"). destruct (adispose t); [|done]. unfold found. rewrite -omap_app.
    replace (Z.of_nat (S i) * apage t) with (Z.of_nat i * apage t + apage t) by lia. rewrite -seqZ_app; [|lia|lia]. replace (apage t + Z.of_nat n * apage t) with (Z.of_nat (S n) * apage t) by lia. done.
Qed.
Lemma step_dispose h a f : allowed szT a (Dispose h) -> all a ⊢ goal (Dispose h) a f.
Proof.
  intros Hal. iIntros "Ha". iApply wpi_bind. destruct h as [h|]; [|by stay a; left]. destruct Hal as [t Ht].
  iDestruct (all_take _ _ _ _ Ht with "Ha") as "[(%ps&Hh&Hr&%Hok&%Hl) Ha]". pose proof Hok as (Hm0&Ha0&Hma&Hpb&Hin).
  iApply wpi_bind. iApply (wpi_get_p with "Hh"). iIntros "Hh". simpl. iApply wpi_bind. iApply (wpi_dispose_pages _ _ ps _ _ _ Ha0 0%nat with "Hh [Hr]"); [lia|done|].
  iIntros "Hh". iApply wpi_bind. iApply (wpi_free_p with "Hh"). stay (delete h a). left. exists t. split; [done|]. split; [|done]. f_equal. destruct (adispose t); [|done].
  pose proof (Z.div_mod (amax t + apage t - 1) (apage t) ltac:(lia)) as Hd. pose proof (Z.mod_pos_bound (amax t + apage t - 1) (apage t) ltac:(lia)). fold (npages t) in Hd.
  assert (0 <= npages t). { unfold npages. apply Z.div_pos; lia. }
  rewrite Z.mul_0_l Z2Nat.id //. replace (npages t * apage t) with (amax t + (npages t * apage t - amax t)) by lia. rewrite seqZ_app; [|lia|lia]. unfold found. rewrite omap_app.
  assert (forall l, (forall x, x ∈ l -> cells t !! x = None) -> omap (fun i => cells t !! i) l = []) as Hnil.
  { intros l. induction l as [|x l IHl]; intros Hx; [done|]. simpl. rewrite Hx; [|by left]. apply IHl. intros. apply Hx. by right. }
  rewrite (Hnil (seqZ (0 + amax t) _)); [by rewrite app_nil_r|]. intros x Hx. apply elem_of_seqZ in Hx. destruct (cells t !! x) eqn:E; [|done]. specialize (Hin x ltac:(eauto)). lia.
Qed.
Lemma step o a f : allowed szT a o -> all a ⊢ goal o a f.
Proof. destruct o; [apply step_create|apply step_dispose|apply step_allocate|apply step_release|apply step_get|apply step_load|apply step_store]. Qed.

(** The objects in use. *)
Lemma count_some t (ps : list ptr) : pages_at t ps ⊢ has_objs (count (fun k => match ps !! Z.to_nat k with Some (Some _) => true | _ => false end) (length ps)).
Proof.
  unfold pages_at. induction ps as [|p ps IH] using rev_ind.
  - simpl. apply has_objs_emp.
  - rewrite big_sepL_app IH /= Nat.add_0_r right_id app_length Nat.add_1_r /= Nat2Z.id lookup_app_r // Nat.sub_diag /=.
    rewrite (count_ext (fun k => match (ps ++ [p]) !! Z.to_nat k with Some (Some _) => true | _ => false end) (fun k => match ps !! Z.to_nat k with Some (Some _) => true | _ => false end)); last first. { intros i Hi. rewrite lookup_app_l //. lia. }
    rewrite Nat.add_comm -has_objs_sep. apply bi.sep_mono_r. destruct p as [q|].
    + iIntros "(%its&%bytes&%n&Hq&_)". by iApply has_objs_obj.
    + simpl. iIntros "_". by iApply has_objs_emp.
Qed.
Lemma used_page t k p : ok t -> 0 <= k -> page_at t k p ⊢ ⌜k ∈ used_pages t <-> is_Some p⌝.
Proof.
  intros (Hm0&Ha0&Hma&Hpb&Hin) Hk. destruct p as [q|]; simpl.
  - iIntros "(%its&%bytes&%n&_&%Hpg)". iPureIntro. split; [by eexists|]. intros _. destruct Hpg as [(H1&H2&H3&H4) Hn]. destruct (count_pos (bit bytes) (Z.to_nat (apage t))) as (j&Hj&Hb); [lia|].
    unfold used_pages. apply elem_of_map. exists (k * apage t + j). rewrite (proj1 (join_index k j (apage t) ltac:(lia))). split; [done|]. apply elem_of_dom. rewrite H3; [|lia]. rewrite Hb. by eexists.
  - iIntros "%Hfree". iPureIntro. split; [|by intros [? ?]]. intros Hu. exfalso. unfold used_pages in Hu. apply elem_of_map in Hu as (i&->&Hi). apply elem_of_dom in Hi as [c Hc].
    specialize (Hfree (i mod apage t) (Z.mod_pos_bound _ _ Ha0)). rewrite -split_index // Hc // in Hfree.
Qed.
Lemma used_all t ps : ok t -> pages_at t ps ⊢ ⌜forall k p, ps !! k = Some p -> (Z.of_nat k ∈ used_pages t <-> is_Some p)⌝.
Proof.
  intros Hok. apply hentails_intro. intros r Hr. change (forall k p, ps !! k = Some p -> (Z.of_nat k ∈ used_pages t <-> is_Some p)). intros k p Hp. revert r Hr. assert (pages_at t ps ⊢ ⌜Z.of_nat k ∈ used_pages t <-> is_Some p⌝) as H; [|intros r Hr; exact (holds_mono _ _ r H Hr)].
  iIntros "Hr". iDestruct (pages_open t ps (Z.of_nat k) p with "Hr") as "[Hp _]"; [by rewrite Nat2Z.id|lia|]. iApply (used_page with "Hp"); [done|lia].
Qed.
Lemma is_p_objs h t : is_p h t ⊢ has_objs (1 + size (used_pages t)).
Proof.
  iIntros "(%ps&Hh&Hr&%Hok&%Hl)". iApply has_objs_sep. iSplitL "Hh"; [by iApply has_objs_obj|].
  iAssert (⌜forall k p, ps !! k = Some p -> (Z.of_nat k ∈ used_pages t <-> is_Some p)⌝)%I as %Hu.
  { by iApply (used_all with "Hr"). }
  rewrite (count_size (used_pages t) (length ps)).
  - erewrite count_ext; [by iApply count_some|]. intros k Hk. simpl. destruct (lookup_lt_is_Some_2 ps (Z.to_nat k)) as [p Hp]; [lia|]. rewrite Hp. specialize (Hu _ _ Hp). rewrite Z2Nat.id in Hu; last lia.
    destruct p as [q|]; [apply bool_decide_eq_true_2; apply Hu; by eexists|apply bool_decide_eq_false_2; intros Hk'; apply Hu in Hk' as [? ?]; done].
  - intros k Hk. unfold used_pages in Hk. apply elem_of_map in Hk as (i&->&Hi). apply elem_of_dom in Hi. pose proof Hok as (Hm0&Ha0&Hma&Hpb&Hin). rewrite Hl. apply index_page; eauto.
Qed.
(** Distinct elements have distinct addresses. *)
Lemma page_has_cell t i c q : ok t -> cells t !! i = Some c -> page_at t (i / apage t) q ⊢ ∃ o, (addr c).1 ↦o o ∗ ⌈addr c = ((addr c).1, i mod apage t) /\ q = Some (addr c).1⌉.
Proof.
  intros Hok Hc. destruct q as [q|].
  - iIntros "(%its&%bytes&%n&Hq&%Hpg)". destruct Hpg as [Hpg _]. pose proof (cell_of _ _ _ _ _ _ Hok Hpg) as Hcell. rewrite Hc in Hcell. destruct (bit bytes _); [|done]. injection Hcell as ->.
    iExists _. iFrame "Hq". done.
  - iIntros "%Hfree". pose proof Hok as (Hm0&Ha0&Hma&Hpb&Hin). exfalso. specialize (Hfree (i mod apage t) (Z.mod_pos_bound _ _ Ha0)). rewrite -split_index // Hc // in Hfree.
Qed.
Lemma is_p_cell h t i c : cells t !! i = Some c -> is_p h t ⊢ (∃ o, (addr c).1 ↦o o) ∗ True.
Proof.
  iIntros (Hc) "(%ps&Hh&Hr&%Hok&%Hl)". pose proof Hok as (Hm0&Ha0&Hma&Hpb&Hin). pose proof (index_page i t Hok (Hin i ltac:(eauto))) as Hk.
  destruct (lookup_lt_is_Some_2 ps (Z.to_nat (i / apage t))) as [p Hp]; [lia|]. iDestruct (pages_open t ps (i / apage t) p Hp with "Hr") as "[Hp Hr]"; [lia|].
  iDestruct (page_has_cell with "Hp") as (o) "[Hq _]"; [done..|]. iSplitL "Hq"; [by iExists o|done].
Qed.
Lemma is_p_inj h t i c i' c' : cells t !! i = Some c -> cells t !! i' = Some c' -> addr c = addr c' -> is_p h t ⊢ ⌜i = i'⌝.
Proof.
  iIntros (Hc Hc' E) "(%ps&Hh&Hr&%Hok&%Hl)". pose proof Hok as (Hm0&Ha0&Hma&Hpb&Hin). pose proof (index_page i t Hok (Hin i ltac:(eauto))) as Hk. pose proof (index_page i' t Hok (Hin i' ltac:(eauto))) as Hk'.
  destruct (lookup_lt_is_Some_2 ps (Z.to_nat (i / apage t))) as [p Hp]; [lia|]. destruct (lookup_lt_is_Some_2 ps (Z.to_nat (i' / apage t))) as [p' Hp']; [lia|].
  destruct (decide (i / apage t = i' / apage t)) as [Ek|Ek].
  - iAssert (⌜addr c = ((addr c).1, i mod apage t)⌝)%I as %H1. { iDestruct (pages_open t ps (i / apage t) p Hp with "Hr") as "[Hp _]"; [lia|]. iDestruct (page_has_cell with "Hp") as (o) "[_ %H]"; [done..|]. by destruct H. }
    iAssert (⌜addr c' = ((addr c').1, i' mod apage t)⌝)%I as %H2. { iDestruct (pages_open t ps (i' / apage t) p' Hp' with "Hr") as "[Hp _]"; [lia|]. iDestruct (page_has_cell with "Hp") as (o) "[_ %H]"; [done..|]. by destruct H. }
    iPureIntro. rewrite (split_index i (apage t) Ha0) (split_index i' (apage t) Ha0) Ek. rewrite H1 H2 in E. injection E as _ ->. done.
  - unfold pages_at. rewrite (big_sepL_delete _ ps _ _ Hp). iDestruct "Hr" as "[Hp Hr]". rewrite (big_sepL_delete _ ps _ _ Hp'). iDestruct "Hr" as "[Hp' _]". rewrite decide_False; last lia.
    rewrite !Z2Nat.id; [|lia|lia]. iDestruct (page_has_cell with "Hp") as (o) "[Hq _]"; [done..|]. iDestruct (page_has_cell with "Hp'") as (o') "[Hq' _]"; [done..|]. rewrite E.
    iDestruct (obj_ne with "Hq Hq'") as %[]. done.
Qed.
Lemma all_inj a h t i c h' t' i' c' : a !! h = Some t -> cells t !! i = Some c -> a !! h' = Some t' -> cells t' !! i' = Some c' -> addr c = addr c' -> all a ⊢ ⌜h = h' /\ i = i'⌝.
Proof.
  iIntros (Ht Hc Ht' Hc' E) "Ha". iDestruct (all_take _ _ _ _ Ht with "Ha") as "[Hp Ha]". destruct (decide (h = h')) as [<-|Hne].
  - assert (t' = t) as -> by congruence. iDestruct (is_p_inj with "Hp") as %->; done.
  - iDestruct (all_take _ _ h' t' with "Ha") as "[Hp' _]"; [by rewrite lookup_delete_ne|]. iDestruct (is_p_cell with "Hp") as "[(%o&Hq) _]"; [done|]. iDestruct (is_p_cell with "Hp'") as "[(%o'&Hq') _]"; [done|].
    rewrite E. iDestruct (obj_ne with "Hq Hq'") as %[]. done.
Qed.
Definition reps := SepAll.reps is_p.
Lemma step_ok o s a : reps s a -> allowed szT a o ->
  exists r s' a', run hdr szT o s = Done (r, s') /\ reps s' a' /\ (effect o a r a' \/ (((fails s < fails s')%nat \/ too_big hdr szT o a) /\ failed o a r a')).
Proof. intros R Hal. by apply (reps_step is_p (run hdr szT o) s a (fun r f' a' => post o a (fails s) r f' a') (step o a (fails s) Hal)). Qed.
End proofs.

(** A page whose size in bytes wraps. *)
Lemma allocate_wraps hdr szT h d s : get_p h s = Done (d, s) -> 0 < max_size d -> slot_get h 0 s = Done (None, s) -> (0 =? 0 / page_size d) = true -> oracle s = [] ->
  (is_Some (size_flex hdr (u64 (u64 (page_size d * szT) + BITMAP_SIZE (page_size d))) 1)) ->
  u64 (u64 (page_size d * szT) + BITMAP_SIZE (page_size d)) < page_size d * szT + BITMAP_SIZE (page_size d) -> run hdr szT (Allocate (Some h) 0 true) s = Undef.
Proof.
  intros Hd Hm Hs Hp Ho [x Hx] Hw. unfold run, PAGED_SPARSE_ARRAY_ALLOCATE. unfold bind at 1 2. simpl. rewrite Hd. destruct (Z.leb_spec (max_size d) 0); [lia|]. apply Z.eqb_eq in Hp. rewrite -Hp.
  unfold bind at 1. rewrite Hs. unfold bind at 1 2. unfold ALLOCATE_PAGE. rewrite Hx. unfold bind at 1. unfold new_obj, bind at 1. unfold alloc_ok. rewrite Ho. rewrite decide_True //.
Qed.
Lemma create_too_big hdr szT m p d s : is_u64 m -> is_u64 p -> UINT64_MAX < hdr + (m + p - 1) / p * 8 -> run hdr szT (Create m p d) s = Done (RHandle None, s).
Proof.
  unfold is_u64. intros Hm Hp Hb. unfold run, PAGED_SPARSE_ARRAY_CREATE. destruct (decide _) as [|Hs]; [done|].
  assert (m <> 0 /\ p <> 0 /\ m + p - 1 <= UINT64_MAX) as (Hm0&Hp0&Hmp).
  { assert (m <> 0 /\ p <> 0) as [Hm0 Hp0] by tauto. rewrite (u64_small (p - 1)) in Hs; [|unfold is_u64; lia]. rewrite u64_small in Hs; [|unfold is_u64; lia]. lia. }
  assert (u64 (u64 (m + p) - 1) = m + p - 1) as ->. { rewrite /u64 Zminus_mod_idemp_l Z.mod_small //. unfold UINT64_MOD, UINT64_MAX in *. lia. }
  unfold size_flex. rewrite decide_False; [done|lia].
Qed.
