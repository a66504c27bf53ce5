From Verif Require Import SepHeap.
From Verif Require Import Common Block BlockFacts CMem CMemFacts CStr CStrFacts CArr SepRules MapModel MapSpec.

Notation iP := (hPropI obj).
Notation cellsof ps := ((fun p : positive => Some (Some p)) <$> ps).
Definition strs (ps : list positive) (ls : list text) : iP := ([∗ list] p;l ∈ ps;ls, str_at p l)%I.
(** An array holding these strings, with cells to spare; and one with at least one cell to spare. *)
Definition vec (h : positive) (ls : list text) : iP := (∃ ps rest, arr_at h (cellsof ps ++ rest) ∗ strs ps ls)%I.
Definition vec_plus (h : positive) (ls : list text) : iP := (∃ ps x rest, arr_at h (cellsof ps ++ x :: rest) ∗ strs ps ls)%I.
Definition ovec (p : ptr) (ls : list text) : iP := match ls with [] => ⌈p = None⌉ | _ => ∃ h, ⌈p = Some h⌉ ∗ vec h ls end%I.
Definition is_map (h : positive) (m : amap) : iP :=
  (∃ ks vs, ⌈NoDup (entries m).*1⌉ ∗ h ↦o OMap (MData ks vs (length (entries m)) (afilter m)) ∗ ovec ks (entries m).*1 ∗ ovec vs (entries m).*2)%I.
Definition all_maps (a : maps) : iP := ([∗ map] h ↦ m ∈ a, is_map h m)%I.

Section rules.
Implicit Types (h : positive) (f : nat).

Lemma wpi_get_map h m f (Q : mdata -> nat -> iP) : h ↦o OMap m -∗ (h ↦o OMap m -∗ Q m f) -∗ wpi (get_map h) f Q.
Proof. iIntros "H1 H2". iApply wpi_bind. iApply (wpi_get_obj with "H1"). iIntros "H1". iApply wpi_ret. by iApply "H2". Qed.
Lemma wpi_set_map h m m' f (Q : unit -> nat -> iP) : h ↦o OMap m -∗ (h ↦o OMap m' -∗ Q tt f) -∗ wpi (set_map h m') f Q.
Proof. iIntros "H1 H2". iApply wpi_bind. iApply (wpi_get_map with "H1"). iIntros "H1". by iApply (wpi_set_obj with "H1"). Qed.
Lemma wpi_free_map h m f (Q : unit -> nat -> iP) : h ↦o OMap m -∗ Q tt f -∗ wpi (free_map h) f Q.
Proof. iIntros "H1 H2". iApply wpi_bind. iApply (wpi_get_map with "H1"). iIntros "H1". by iApply (wpi_free_obj with "H1"). Qed.

Lemma wpi_sprintf c l f (Q : ptr -> nat -> iP) :
  arg_at c l -∗ (arg_at c l -∗ (∀ p, str_at p l -∗ Q (Some p) f) ∧ (∀ f', ⌜f < f' \/ long l⌝ → Q None f')) -∗ wpi (sprintf_s c) f Q.
Proof.
  iIntros "Hc H". iApply wpi_bind. iApply (wpi_strlen with "Hc"). iIntros "Hc". case_decide as Hl.
  { iApply wpi_ret. iDestruct ("H" with "Hc") as "[_ H]". iApply "H". auto. }
  iApply wpi_bind. iApply wpi_malloc. iSplit.
  - iIntros (p) "Hp". iApply wpi_bind. iApply (wpi_strcpy with "Hp Hc"); [by rewrite replicate_length|]. iIntros "Hp Hc". iApply wpi_ret.
    iDestruct ("H" with "Hc") as "[H _]". by iApply "H".
  - iApply wpi_ret. iDestruct ("H" with "Hc") as "[_ H]". iApply "H". auto.
Qed.
Lemma wpi_text_of c l f (Q : text -> nat -> iP) : arg_at c l -∗ (arg_at c l -∗ Q l f) -∗ wpi (text_of c) f Q.
Proof.
  iIntros "Hc H". iApply wpi_bind. iApply (wpi_strlen with "Hc"). iIntros "Hc". iApply wpi_bind. iApply (wpi_cells with "Hc"). iIntros (rest) "Hc".
  assert (mapM id (take (length l) (str_block l rest)) = Some l) as ->.
  { unfold str_block. rewrite take_app_alt; last by rewrite fmap_length. unfold bytes_block. induction l as [|x l IH]; simpl; [done|]. by rewrite IH. }
  iApply wpi_ret. by iApply "H".
Qed.
Lemma wpi_rejected m k v lk lv f (Q : bool -> nat -> iP) :
  arg_at k lk -∗ arg_at v lv -∗ (arg_at k lk -∗ arg_at v lv -∗ Q (rejects (filter m) lk lv) f) -∗ wpi (rejected m k v) f Q.
Proof.
  iIntros "Hk Hv H". unfold rejected, rejects. destruct (filter m); [|iApply wpi_ret; iApply ("H" with "Hk Hv")].
  iApply wpi_bind. iApply (wpi_text_of with "Hk"). iIntros "Hk". iApply wpi_bind. iApply (wpi_text_of with "Hv"). iIntros "Hv". iApply wpi_ret. iApply ("H" with "Hk Hv").
Qed.

Lemma cells_lookup ps rest i p : ps !! i = Some p -> (cellsof ps ++ rest) !! i = Some (Some (Some p)).
Proof. intros H. rewrite lookup_app_l; [|rewrite fmap_length; by eapply lookup_lt_Some]. by rewrite list_lookup_fmap H. Qed.

(** The position of the first occurrence. *)
Fixpoint pos (l : text) (ls : list text) : option nat :=
  match ls with [] => None | l' :: ls => if decide (l' = l) then Some 0 else S <$> pos l ls end.
Lemma wpi_find_loop h a c l ps1 ps ls f (Q : option nat -> nat -> iP) :
  (forall i p, (ps1 ++ ps) !! i = Some p -> a !! i = Some (Some (Some p))) ->
  arr_at h a -∗ strs ps ls -∗ arg_at c l -∗
  (arr_at h a -∗ strs ps ls -∗ arg_at c l -∗ Q ((fun j => length ps1 + j) <$> pos l ls) f) -∗
  wpi (find_loop (Some h) c (length ps1) (length ls)) f Q.
Proof.
  revert ps1 ps Q. induction ls as [|l' ls IH]; iIntros (ps1 ps Q Ha) "Ha Hs Hc H".
  { simpl. iApply wpi_ret. iApply ("H" with "Ha Hs Hc"). }
  destruct ps as [|p ps]; [done|]. iDestruct "Hs" as "[Hp Hs]".
  simpl. iApply wpi_bind. iApply (wpi_arr_get with "Ha"). { apply Ha. rewrite lookup_app_r // Nat.sub_diag //. }
  iIntros "Ha". iApply wpi_bind. iApply wpi_ret. iApply wpi_bind. iApply (wpi_strcmp (CPtr p) with "Hp Hc"). iIntros (z Hz) "Hp Hc".
  destruct (decide (z = 0%Z)) as [->|Hne].
  - iApply wpi_ret. rewrite decide_True; last by apply Hz. simpl. rewrite Nat.add_0_r. iApply ("H" with "Ha [Hp Hs] Hc"). iFrame.
  - rewrite decide_False; last naive_solver. specialize (IH (ps1 ++ [p]) ps). rewrite app_length /= in IH. rewrite Nat.add_comm in IH.
    iApply (IH with "Ha Hs Hc"); [by rewrite -assoc_L|]. iIntros "Ha Hs Hc". assert ((λ j, 1 + length ps1 + j) <$> pos l ls = (λ j, length ps1 + j) <$> (S <$> pos l ls)) as ->.
    { destruct (pos l ls); simpl; f_equal; lia. }
    iApply ("H" with "Ha [Hp Hs] Hc"). iFrame.
Qed.
Lemma wpi_find_vec h c l ls f (Q : option nat -> nat -> iP) :
  vec h ls -∗ arg_at c l -∗ (vec h ls -∗ arg_at c l -∗ Q (pos l ls) f) -∗ wpi (find_loop (Some h) c 0 (length ls)) f Q.
Proof.
  iIntros "(%ps&%rest&Ha&Hs) Hc H". iApply (wpi_find_loop h _ c l [] ps with "Ha Hs Hc"); [intros; by apply cells_lookup|].
  iIntros "Ha Hs Hc". simpl. rewrite option_fmap_id. iApply ("H" with "[Ha Hs] Hc"). iExists _, _. iFrame.
Qed.
Lemma wpi_find (key : bool) ks vs n fl c l ls f (Q : option nat -> nat -> iP) : n = length ls ->
  ovec (if key then ks else vs) ls -∗ arg_at c l -∗ (ovec (if key then ks else vs) ls -∗ arg_at c l -∗ Q (pos l ls) f) -∗
  wpi ((if key then findKey else findValue) (MData ks vs n fl) c) f Q.
Proof.
  iIntros (->) "Hv Hc H". assert ((if key then findKey else findValue) (MData ks vs (length ls) fl) c =
    match (if key then ks else vs) with None => ret None | Some _ => find_loop (if key then ks else vs) c 0 (length ls) end) as ->. { by destruct key. }
  destruct ls as [|l' ls]; simpl.
  - iDestruct "Hv" as %->. iApply wpi_ret. iApply ("H" with "[//] Hc").
  - iDestruct "Hv" as (h) "[%E Hv]". rewrite E. iApply (wpi_find_vec with "Hv Hc"). iIntros "Hv Hc". iApply ("H" with "[Hv] Hc"). iExists h. by iFrame.
Qed.

Lemma wpi_free_from h a ps1 ps ls f (Q : unit -> nat -> iP) :
  (forall i p, (ps1 ++ ps) !! i = Some p -> a !! i = Some (Some (Some p))) ->
  arr_at h a -∗ strs ps ls -∗ (arr_at h a -∗ Q tt f) -∗ wpi (free_from (Some h) (length ps1) (length ps)) f Q.
Proof.
  revert ps1 ls Q. induction ps as [|p ps IH]; iIntros (ps1 ls Q Ha) "Ha Hs H"; (destruct ls as [|l ls]; [try done|try done]).
  { simpl. iApply wpi_ret. iApply ("H" with "Ha"). }
  iDestruct "Hs" as "[Hp Hs]". simpl. iApply wpi_bind. iApply (wpi_arr_get with "Ha"). { apply Ha. rewrite lookup_app_r // Nat.sub_diag //. }
  iIntros "Ha". iApply wpi_bind. iApply (wpi_free_str with "Hp").
  specialize (IH (ps1 ++ [p])). rewrite app_length /= in IH. rewrite Nat.add_comm in IH. iApply (IH with "Ha Hs"); [by rewrite -assoc_L|]. done.
Qed.
Lemma wpi_free_both m hk ak hv av pk1 pk pv1 pv lk lv f (Q : unit -> nat -> iP) : keys m = Some hk -> values m = Some hv ->
  (forall i p, (pk1 ++ pk) !! i = Some p -> ak !! i = Some (Some (Some p))) -> (forall i p, (pv1 ++ pv) !! i = Some p -> av !! i = Some (Some (Some p))) ->
  length pk1 = length pv1 -> length pk = length pv ->
  arr_at hk ak -∗ arr_at hv av -∗ strs pk lk -∗ strs pv lv -∗ (arr_at hk ak -∗ arr_at hv av -∗ Q tt f) -∗ wpi (free_both m (length pk1) (length pk)) f Q.
Proof.
  intros Hk Hv. revert pk1 pv1 pv lk lv Q.
  induction pk as [|p pk IH]; iIntros (pk1 pv1 pv lk lv Q Hak Hav Hl1 Hl) "Ha Hb Hs Ht H"; destruct lk as [|l lk]; try done.
  { destruct pv; [|done]. destruct lv; [|done]. simpl. iApply wpi_ret. iApply ("H" with "Ha Hb"). }
  destruct pv as [|q pv]; [done|]. destruct lv as [|l' lv]; [done|]. iDestruct "Hs" as "[Hp Hs]". iDestruct "Ht" as "[Hq Ht]". simpl. rewrite Hk Hv.
  iApply wpi_bind. iApply (wpi_arr_get with "Ha"). { apply Hak. rewrite lookup_app_r // Nat.sub_diag //. }
  iIntros "Ha". iApply wpi_bind. iApply (wpi_free_str with "Hp").
  iApply wpi_bind. iApply (wpi_arr_get with "Hb"). { apply Hav. rewrite Hl1 lookup_app_r // Nat.sub_diag //. }
  iIntros "Hb". iApply wpi_bind. iApply (wpi_free_str with "Hq").
  specialize (IH (pk1 ++ [p]) (pv1 ++ [q]) pv lk lv). rewrite app_length /= in IH. rewrite Nat.add_comm in IH.
  iApply (IH with "Ha Hb Hs Ht"); [by rewrite -assoc_L|by rewrite -assoc_L|by rewrite !app_length Hl1 /= Nat.add_comm|by injection Hl|done].
Qed.

Lemma strs_app ps1 ps2 ls1 ls2 : strs ps1 ls1 -∗ strs ps2 ls2 -∗ strs (ps1 ++ ps2) (ls1 ++ ls2).
Proof. iIntros "H1 H2". unfold strs. iApply (big_sepL2_app with "H1 H2"). Qed.
Lemma strs_length ps ls : strs ps ls -∗ ⌜length ps = length ls⌝.
Proof. apply big_sepL2_length. Qed.

Lemma wpi_clone_loop hs a h ps1 ps ls qs ls1 f (Q : nat -> nat -> iP) b :
  (forall i p, (ps1 ++ ps) !! i = Some p -> a !! i = Some (Some (Some p))) -> length qs = length ps1 -> length b = length ps ->
  arr_at hs a -∗ strs ps ls -∗ arr_at h (cellsof qs ++ b) -∗ strs qs ls1 -∗
  (arr_at hs a -∗ strs ps ls -∗
     ((∀ qs', arr_at h (cellsof (qs ++ qs')) -∗ strs (qs ++ qs') (ls1 ++ ls) -∗ Q (length (ps1 ++ ps)) f) ∧
      (∀ qs' b' ls2 f', ⌜(f < f' \/ exists l, l ∈ ls /\ long l) /\ length qs' < length (ps1 ++ ps)⌝ → arr_at h (cellsof qs' ++ b') -∗ strs qs' ls2 -∗ Q (length qs') f'))) -∗
  wpi (clone_loop (Some hs) (Some h) (length ps1) (length ps)) f Q.
Proof.
  revert ps1 ps qs ls1 b Q. induction ls as [|l ls IH]; iIntros (ps1 ps qs ls1 b Q Ha Hq Hb) "Ha Hs Hr Ht H"; (destruct ps as [|p ps]; [try done|try done]).
  { destruct b; [|done]. simpl. iApply wpi_ret. iDestruct ("H" with "Ha Hs") as "[H _]". iSpecialize ("H" $! []). rewrite !app_nil_r. iApply ("H" with "Hr Ht"). }
  iDestruct "Hs" as "[Hp Hs]". simpl. iApply wpi_bind. iApply (wpi_arr_get with "Ha"). { apply Ha. rewrite lookup_app_r // Nat.sub_diag //. }
  iIntros "Ha". iApply wpi_bind. iApply wpi_ret. iApply wpi_bind. iApply (wpi_sprintf (CPtr p) with "Hp"). iIntros "Hp".
  destruct b as [|x b]; [done|]. iSplit.
  - iIntros (q) "Hq". iApply wpi_bind. iApply (wpi_arr_set with "Hr"). { rewrite app_length fmap_length /=. lia. } iIntros "Hr".
    rewrite insert_app_r_alt; last (rewrite fmap_length; lia). rewrite fmap_length Hq Nat.sub_diag. simpl.
    assert (S (length ps1) = length (ps1 ++ [p])) as ->. { rewrite app_length /=. lia. }
    iApply (IH (ps1 ++ [p]) ps (qs ++ [q]) (ls1 ++ [l]) b with "Ha Hs [Hr] [Ht Hq]"). { by rewrite -assoc_L. } { rewrite !app_length /=. lia. } { by injection Hb. } { rewrite fmap_app -assoc_L. iFrame. } { iApply (strs_app with "Ht"). by iFrame. }
    iIntros "Ha Hs". iDestruct ("H" with "Ha [Hp Hs]") as "H"; [iFrame|]. iSplit.
    + iDestruct "H" as "[H _]". iIntros (qs') "Hr Ht". iSpecialize ("H" $! (q :: qs')). rewrite -!assoc_L /=. iApply ("H" with "Hr Ht").
    + iDestruct "H" as "[_ H]". iIntros (qs' b' ls2 f' [Hf Hl]) "Hr Ht". iApply ("H" $! qs' b' ls2 with "[] Hr Ht"). iPureIntro. rewrite -assoc_L in Hl. split; [|done].
      destruct Hf as [?|(l'&?&?)]; [by left|right]. exists l'. split; [by right|done].
  - iIntros (f' Hf). iApply wpi_bind. iApply (wpi_arr_set with "Hr"). { rewrite app_length fmap_length /=. lia. } iIntros "Hr".
    rewrite insert_app_r_alt; last (rewrite fmap_length; lia). iApply wpi_ret. iDestruct ("H" with "Ha [Hp Hs]") as "[_ H]"; [iFrame|].
    rewrite -Hq. iApply ("H" with "[] Hr Ht"). iPureIntro. rewrite app_length /=. split; [|lia].
    destruct Hf; [by left|right]. exists l. split; [by left|done].
Qed.
Lemma flex_none b n : flex b n 8 = None -> (UINT64_MAX < Z.of_nat b + Z.of_nat n * 8)%Z.
Proof. unfold flex, size_max. case_decide; [done|]. intros _. lia. Qed.
Lemma wpi_clone_vec hs ls n f (Q : ptr -> nat -> iP) : n = length ls ->
  vec hs ls -∗
  (vec hs ls -∗ (∀ h, vec h ls -∗ Q (Some h) f) ∧ (∀ f', ⌜f < f' \/ (exists l, l ∈ ls /\ long l) \/ (UINT64_MAX < Z.of_nat (length ls) * 8)%Z⌝ → Q None f')) -∗
  wpi (Map_CloneVector (Some hs) n) f Q.
Proof.
  iIntros (->) "(%ps&%rest&Ha&Hs) H". iDestruct (strs_length with "Hs") as %Hl. rewrite -Hl. iApply wpi_bind. iApply wpi_arr_alloc. iSplit.
  - iIntros (h) "Hr". iApply wpi_bind.
    iApply (wpi_clone_loop hs _ h [] ps ls [] [] _ _ (replicate (length ps) None) with "Ha Hs Hr []"); [intros; by apply cells_lookup|done|by rewrite replicate_length|by iApply big_sepL2_nil|].
    iIntros "Ha Hs". iAssert (vec hs ls) with "[Ha Hs]" as "Hv"; [iExists _, _; iFrame|]. iDestruct ("H" with "Hv") as "H". iSplit.
    + iDestruct "H" as "[H _]". iIntros (qs) "Hr Ht". simpl. rewrite decide_True //. iApply wpi_ret. iApply "H". iExists qs, []. rewrite app_nil_r. iFrame.
    + iDestruct "H" as "[_ H]". iIntros (qs b' ls2 f' [Hf Hlt]) "Hr Ht". simpl in *. rewrite decide_False; last lia. iApply wpi_bind.
      iApply (wpi_free_from h _ [] qs with "Hr Ht"); [intros; by apply cells_lookup|]. iIntros "Hr". iApply wpi_bind. iApply (wpi_arr_free with "Hr"). iApply wpi_ret.
      iApply "H". iPureIntro. tauto.
  - iIntros (f' [_ Hf]). iApply wpi_ret. iDestruct ("H" with "[Ha Hs]") as "[_ H]"; [iExists _, _; iFrame|]. iApply "H". iPureIntro.
    destruct Hf as [?|Hf]; [by left|right; right]. apply flex_none in Hf. lia.
Qed.

Lemma vec_length_strs (h : positive) ps rest ls : arr_at h (cellsof ps ++ rest) -∗ strs ps ls -∗ vec h ls.
Proof. iIntros "H1 H2". iExists _, _. iFrame. Qed.
Lemma vec_plus_vec h ls : vec_plus h ls -∗ vec h ls.
Proof. iIntros "(%ps&%x&%rest&H1&H2)". iExists _, _. iFrame. Qed.
Lemma ovec_vec h ls : ls <> [] -> vec h ls -∗ ovec (Some h) ls.
Proof. iIntros (Hl) "H". destruct ls; [done|]. iExists h. by iFrame. Qed.

(** Growing an array by one cell. *)
Lemma wpi_grow sz p ls n f (Q : ptr -> nat -> iP) : n = length ls + 1 ->
  ovec p ls -∗ ((∀ h, vec_plus h ls -∗ Q (Some h) f) ∧ (∀ f', ⌜f <= f' /\ (f < f' \/ sz = None)⌝ → ovec p ls -∗ Q None f')) -∗ wpi (arr_realloc sz p n) f Q.
Proof.
  iIntros (->) "Hp H". destruct ls as [|l ls].
  - iDestruct "Hp" as %->. iApply wpi_arr_realloc_null. iSplit.
    + iIntros (h) "Hh". iDestruct "H" as "[H _]". iApply "H". iExists [], None, []. iFrame. by iApply big_sepL2_nil.
    + iIntros (f' Hf). iDestruct "H" as "[_ H]". by iApply "H".
  - iDestruct "Hp" as (h) "[-> (%ps&%rest&Ha&Hs)]". iDestruct (strs_length with "Hs") as %Hl. iApply (wpi_arr_realloc with "Ha"). iSplit.
    + iIntros (h') "Hh". iDestruct "H" as "[H _]". iApply "H".
      assert (exists x, take (length (l :: ls) + 1) (cellsof ps ++ rest) ++ replicate (length (l :: ls) + 1 - length (cellsof ps ++ rest)) None = cellsof ps ++ [x]) as [x ->].
      { rewrite take_app_ge; last (rewrite fmap_length; lia). rewrite fmap_length app_length fmap_length -Hl. rewrite -assoc_L.
        replace (length ps + 1 - length ps) with 1; last lia. destruct rest as [|x rest]; simpl.
        - exists None. replace (length ps + 1 - (length ps + 0)) with 1; last lia. done.
        - exists x. replace (length ps + 1 - (length ps + S (length rest))) with 0; last lia. done. }
      iExists ps, x, []. iFrame.
    + iIntros (f' Hf) "Ha". iDestruct "H" as "[_ H]". iApply ("H" with "[//]"). iExists h. iSplit; [done|]. iExists _, _. iFrame.
Qed.
(** Writing the first spare cell. *)
Lemma wpi_set_spare h ps x rest n v f (Q : unit -> nat -> iP) : n = length ps ->
  arr_at h (cellsof ps ++ x :: rest) -∗ (arr_at h (cellsof ps ++ Some v :: rest) -∗ Q tt f) -∗ wpi (arr_set (Some h) n v) f Q.
Proof.
  iIntros (->) "Ha H". iApply (wpi_arr_set with "Ha"). { rewrite app_length fmap_length /=. lia. } iIntros "Ha".
  rewrite insert_app_r_alt; last by rewrite fmap_length. rewrite fmap_length Nat.sub_diag. by iApply "H".
Qed.
Lemma wpi_set_plus h ls n v f (Q : unit -> nat -> iP) : n = length ls -> vec_plus h ls -∗ (vec_plus h ls -∗ Q tt f) -∗ wpi (arr_set (Some h) n v) f Q.
Proof.
  iIntros (->) "(%ps&%x&%rest&Ha&Hs) H". iDestruct (strs_length with "Hs") as %Hl. iApply (wpi_set_spare with "Ha"); [done|]. iIntros "Ha". iApply "H". iExists _, _, _. iFrame.
Qed.
Lemma wpi_set_plus_str h ls n p l f (Q : unit -> nat -> iP) : n = length ls ->
  vec_plus h ls -∗ str_at p l -∗ (vec h (ls ++ [l]) -∗ Q tt f) -∗ wpi (arr_set (Some h) n (Some p)) f Q.
Proof.
  iIntros (->) "(%ps&%x&%rest&Ha&Hs) Hp H". iDestruct (strs_length with "Hs") as %Hl. iApply (wpi_set_spare with "Ha"); [done|]. iIntros "Ha". iApply "H".
  iExists (ps ++ [p]), rest. rewrite fmap_app -assoc_L. iFrame "Ha". iApply (strs_app with "Hs"). by iFrame.
Qed.
(** Shrinking an array to the strings it holds: whether the realloc succeeds or not. *)
Lemma wpi_shrink sz h ls n f (Q : ptr -> nat -> iP) : n = length ls -> ls <> [] ->
  vec_plus h ls -∗ ((∀ h', vec h' ls -∗ Q (Some h') f) ∧ (∀ f', ⌜f <= f'⌝ → vec_plus h ls -∗ Q None f')) -∗ wpi (arr_realloc sz (Some h) n) f Q.
Proof.
  iIntros (-> Hne) "(%ps&%x&%rest&Ha&Hs) H". iDestruct (strs_length with "Hs") as %Hl. iApply (wpi_arr_realloc with "Ha"). iSplit.
  - iIntros (h') "Ha". iDestruct "H" as "[H _]". iApply "H". rewrite -Hl. rewrite app_length fmap_length /=.
    replace (length ps - (length ps + S (length rest))) with 0; last lia. rewrite app_nil_r take_app_alt; last by rewrite fmap_length.
    iExists ps, []. rewrite app_nil_r. iFrame.
  - iIntros (f' Hf) "Ha". iDestruct "H" as "[_ H]". iApply "H". { iPureIntro. lia. } iExists _, _, _. iFrame.
Qed.

Lemma wpi_increase h ks vs n fl kl vl f (Q : bool -> nat -> iP) : n = length kl -> n = length vl ->
  h ↦o OMap (MData ks vs n fl) -∗ ovec ks kl -∗ ovec vs vl -∗
  ((∀ hk hv, h ↦o OMap (MData (Some hk) (Some hv) (n + 1) fl) -∗ vec_plus hk kl -∗ vec_plus hv vl -∗ Q true f) ∧
   (∀ ks' f', ⌜f < f' \/ (UINT64_MAX < 8 + Z.of_nat n * 8)%Z⌝ → h ↦o OMap (MData ks' vs n fl) -∗ ovec ks' kl -∗ ovec vs vl -∗ Q false f')) -∗
  wpi (Map_IncreaseStorageKeysValues h) f Q.
Proof.
  iIntros (Hk Hv) "Hh Hks Hvs H". iApply wpi_bind. iApply (wpi_get_map with "Hh"). iIntros "Hh". cbn [keys values count filter].
  iApply wpi_bind. iApply (wpi_grow with "Hks"); [lia|]. iSplit.
  2:{ iIntros (f' [_ Hf]) "Hks". iApply wpi_ret. iDestruct "H" as "[_ H]". iApply ("H" with "[] Hh Hks Hvs"). iPureIntro. destruct Hf as [|Hf]; [by left|right]. by apply flex_none in Hf. }
  iIntros (hk) "Hks". iApply wpi_bind. iApply (wpi_set_map with "Hh"). iIntros "Hh". iApply wpi_bind. iApply (wpi_set_plus with "Hks"); [done|]. iIntros "Hks".
  iApply wpi_bind. iApply (wpi_grow with "Hvs"); [lia|]. iSplit.
  - iIntros (hv) "Hvs". iApply wpi_bind. iApply (wpi_set_map with "Hh"). iIntros "Hh". iApply wpi_bind. iApply (wpi_set_plus with "Hvs"); [done|]. iIntros "Hvs".
    iApply wpi_bind. iApply (wpi_set_map with "Hh"). iIntros "Hh". iApply wpi_ret. iDestruct "H" as "[H _]". iApply ("H" with "Hh Hks Hvs").
  - iIntros (f' [_ Hf]) "Hvs". iDestruct "H" as "[_ H]". iApply wpi_bind.
    assert (f < f' \/ (UINT64_MAX < 8 + Z.of_nat n * 8)%Z) as Hf'. { destruct Hf as [|Hf]; [by left|right]. by apply flex_none in Hf. }
    case_decide as Hn.
    + iApply wpi_bind. destruct kl; [|simpl in *; lia]. iDestruct "Hks" as "(%ps&%x&%rest&Ha&Hs)". iDestruct (strs_length with "Hs") as %Hl. destruct ps; [|done].
      iApply (wpi_arr_free with "Ha"). iApply (wpi_set_map with "Hh"). iIntros "Hh". iApply wpi_ret. iApply ("H" with "[//] Hh [Hs] Hvs"). unfold strs. simpl. by iFrame.
    + iApply wpi_bind. assert (kl <> []). { intros ->. simpl in *. lia. } iApply (wpi_shrink with "Hks"); [done|done|]. iSplit.
      * iIntros (h') "Hks". iApply (wpi_set_map with "Hh"). iIntros "Hh". iApply wpi_ret. iApply ("H" with "[] Hh [Hks] Hvs"); [iPureIntro; lia|]. by iApply ovec_vec.
      * iIntros (f2 Hf2) "Hks". iApply wpi_ret. iApply wpi_ret. iApply ("H" with "[] Hh [Hks] Hvs"); [iPureIntro; lia|]. iApply ovec_vec; [done|]. by iApply vec_plus_vec.
Qed.

Lemma wpi_decrease h hk hv n fl kl vl f (Q : unit -> nat -> iP) : n = length kl -> n = length vl ->
  h ↦o OMap (MData (Some hk) (Some hv) (n + 1) fl) -∗ vec_plus hk kl -∗ vec_plus hv vl -∗
  (∀ ks vs f', ⌜f <= f'⌝ → h ↦o OMap (MData ks vs n (match kl with [] => None | _ => fl end)) -∗ ovec ks kl -∗ ovec vs vl -∗ Q tt f') -∗
  wpi (Map_DecreaseStorageKeysValues h) f Q.
Proof.
  iIntros (Hk Hv) "Hh Hks Hvs H". iApply wpi_bind. iApply (wpi_get_map with "Hh"). iIntros "Hh". cbn [keys values count filter]. case_decide as Hn.
  - destruct kl; [|simpl in *; lia]. destruct vl; [|simpl in *; lia].
    iDestruct "Hks" as "(%ps&%x&%rest&Ha&Hs)". iDestruct (strs_length with "Hs") as %Hl. destruct ps; [|done].
    iDestruct "Hvs" as "(%qs&%y&%rest'&Hb&Ht)". iDestruct (strs_length with "Ht") as %Hl'. destruct qs; [|done].
    iApply wpi_bind. iApply (wpi_arr_free with "Ha"). iApply wpi_bind. iApply (wpi_arr_free with "Hb"). iApply (wpi_set_map with "Hh"). iIntros "Hh".
    subst n. iApply ("H" with "[//] Hh [Hs] [Ht]"); unfold strs; simpl; by iFrame.
  - assert (kl <> []). { intros ->. simpl in *. lia. } assert (vl <> []). { intros ->. simpl in *. lia. } replace (n + 1 - 1) with n; last lia.
    iApply wpi_bind. iApply (wpi_wand _ _ (fun r f' => ⌈f <= f'⌉ ∗ ovec (match r with Some _ => r | None => Some hk end) kl)%I with "[Hks]").
    { iApply (wpi_shrink with "Hks"); [done..|]. iSplit.
      - iIntros (h') "Hks". iSplitR; [done|]. by iApply ovec_vec.
      - iIntros (f' Hf) "Hks". iSplitR; [done|]. iApply ovec_vec; [done|]. by iApply vec_plus_vec. }
    iIntros (r f1 _) "[%Hf Hks]". iApply wpi_bind. iApply (wpi_set_map with "Hh"). iIntros "Hh".
    iApply wpi_bind. iApply (wpi_wand _ _ (fun r f' => ⌈f1 <= f'⌉ ∗ ovec (match r with Some _ => r | None => Some hv end) vl)%I with "[Hvs]").
    { iApply (wpi_shrink with "Hvs"); [done..|]. iSplit.
      - iIntros (h') "Hvs". iSplitR; [done|]. by iApply ovec_vec.
      - iIntros (f' Hf') "Hvs". iSplitR; [done|]. iApply ovec_vec; [done|]. by iApply vec_plus_vec. }
    iIntros (r' f2 _) "[%Hf2 Hvs]". iApply (wpi_set_map with "Hh"). iIntros "Hh".
    destruct kl; [done|]. iApply ("H" with "[] Hh Hks Hvs"). iPureIntro. lia.
Qed.
Lemma app_ne {A} (l : list A) x : l ++ [x] <> [].
Proof. by destruct l. Qed.
Lemma wpi_insert h ks vs n fl kl vl ck cv lk lv f (Q : bool -> nat -> iP) : n = length kl -> n = length vl ->
  h ↦o OMap (MData ks vs n fl) -∗ ovec ks kl -∗ ovec vs vl -∗ arg_at ck lk -∗ arg_at cv lv -∗
  ((∀ ks vs, h ↦o OMap (MData ks vs (n + 1) fl) -∗ ovec ks (kl ++ [lk]) -∗ ovec vs (vl ++ [lv]) -∗ arg_at ck lk -∗ arg_at cv lv -∗ Q true f) ∧
   (∀ ks vs fl' f', ⌜(f < f' \/ (UINT64_MAX < 8 + Z.of_nat n * 8)%Z \/ long lk \/ long lv) /\ (fl' = fl \/ kl = [] /\ fl' = None)⌝ → h ↦o OMap (MData ks vs n fl') -∗ ovec ks kl -∗ ovec vs vl -∗
      arg_at ck lk -∗ arg_at cv lv -∗ Q false f')) -∗
  wpi (insertNewKeyValue h ck cv) f Q.
Proof.
  iIntros (Hk Hv) "Hh Hks Hvs Hck Hcv H". iApply wpi_bind. iApply (wpi_increase with "Hh Hks Hvs"); [done..|]. iSplit.
  2:{ iIntros (ks' f' Hf) "Hh Hks Hvs". simpl. iApply wpi_ret. iDestruct "H" as "[_ H]". iApply ("H" with "[] Hh Hks Hvs Hck Hcv"). iPureIntro. split; [tauto|by left]. }
  iIntros (hk hv) "Hh Hks Hvs". simpl. iApply wpi_bind. iApply (wpi_get_map with "Hh"). iIntros "Hh". cbn [keys values count filter].
  replace (n + 1 - 1) with n; last lia. iApply wpi_bind. iApply (wpi_sprintf with "Hck"). iIntros "Hck". iSplit.
  2:{ iIntros (f' Hf). iApply wpi_bind. iApply (wpi_set_plus with "Hks"); [done|]. iIntros "Hks". iApply wpi_bind. iApply (wpi_decrease with "Hh Hks Hvs"); [done..|].
    iIntros (ks' vs' f2 Hf2) "Hh Hks Hvs". iApply wpi_ret. iDestruct "H" as "[_ H]". iApply ("H" with "[] Hh Hks Hvs Hck Hcv"). iPureIntro.
    split; [destruct Hf; [left; lia|auto]|destruct kl; auto]. }
  iIntros (p) "Hp". iApply wpi_bind. iDestruct "Hks" as "(%ps&%x&%rest&Ha&Hs)". iDestruct (strs_length with "Hs") as %Hl.
  iApply (wpi_set_spare with "Ha"); [lia|]. iIntros "Ha". iApply wpi_bind. iApply (wpi_sprintf with "Hcv"). iIntros "Hcv". iSplit.
  - iIntros (q) "Hq". iApply wpi_bind. iApply (wpi_set_plus_str with "Hvs Hq"); [done|]. iIntros "Hvs". iApply wpi_ret. iDestruct "H" as "[H _]".
    iApply ("H" with "Hh [Ha Hs Hp] [Hvs] Hck Hcv").
    + iApply ovec_vec; [apply app_ne|]. iExists (ps ++ [p]), rest. rewrite fmap_app -assoc_L. iFrame "Ha". iApply (strs_app with "Hs"). by iFrame.
    + iApply ovec_vec; [apply app_ne|]. iFrame.
  - iIntros (f' Hf). iApply wpi_bind. iApply (wpi_set_plus with "Hvs"); [done|]. iIntros "Hvs".
    iApply wpi_bind. iApply (wpi_arr_get with "Ha"). { rewrite lookup_app_r; last (rewrite fmap_length; lia). rewrite fmap_length. replace (n - length ps) with 0; last lia. done. } iIntros "Ha".
    iApply wpi_bind. iApply (wpi_free_str with "Hp"). iApply wpi_bind. iApply (wpi_decrease _ _ _ _ _ kl vl with "Hh [Ha Hs] Hvs"); [done..| |]. { iExists ps, _, rest. iFrame "Ha Hs". }
    iIntros (ks' vs' f2 Hf2) "Hh Hks Hvs". iApply wpi_ret. iDestruct "H" as "[_ H]". iApply ("H" with "[] Hh Hks Hvs Hck Hcv"). iPureIntro.
    split; [destruct Hf; [left; lia|auto]|destruct kl; auto].
Qed.
End rules.

(** Association lists against the two arrays. *)
Implicit Types e : list (text * text).
Lemma pos_none k ks : pos k ks = None <-> k ∉ ks.
Proof.
  induction ks as [|k' ks IH]; simpl; [by split; [intros _; apply not_elem_of_nil|]|]. rewrite not_elem_of_cons. case_decide as E; [naive_solver|].
  rewrite fmap_None IH. naive_solver.
Qed.
Lemma pos_some k ks i : pos k ks = Some i -> ks !! i = Some k /\ exists k1 k2, ks = k1 ++ k :: k2 /\ length k1 = i /\ k ∉ k1.
Proof.
  revert i. induction ks as [|k' ks IH]; intros i; simpl; [done|]. case_decide as E.
  - intros [= <-]. subst. split; [done|]. exists [], ks. split; [done|]. split; [done|]. apply not_elem_of_nil.
  - rewrite fmap_Some. intros (j&Hj&->). destruct (IH _ Hj) as (Hk&k1&k2&->&<-&Hn). split; [done|]. exists (k' :: k1), k2. split; [done|]. split; [done|]. rewrite not_elem_of_cons. naive_solver.
Qed.
Lemma assoc_none k e : assoc k e = None <-> k ∉ e.*1.
Proof.
  induction e as [|[k' v] e IH]; simpl; [by split; [intros _; apply not_elem_of_nil|]|]. rewrite not_elem_of_cons. case_decide; [naive_solver|]. rewrite IH. naive_solver.
Qed.
Lemma assoc_mid k v e1 e2 : k ∉ e1.*1 -> assoc k (e1 ++ (k, v) :: e2) = Some v.
Proof. induction e1 as [|[k' v'] e1 IH]; simpl; [by rewrite decide_True|]. rewrite not_elem_of_cons. intros [? ?]. rewrite decide_False; [|done]. auto. Qed.
Lemma split_at k e i : pos k e.*1 = Some i -> exists e1 v e2, e = e1 ++ (k, v) :: e2 /\ length e1 = i /\ k ∉ e1.*1.
Proof.
  revert i. induction e as [|[k' v] e IH]; intros i; simpl; [done|]. case_decide as E.
  - intros [= <-]. subst. exists [], v, e. split; [done|]. split; [done|]. apply not_elem_of_nil.
  - rewrite fmap_Some. intros (j&Hj&->). destruct (IH _ Hj) as (e1&v'&e2&->&<-&Hn). exists ((k', v) :: e1), v', e2. split; [done|]. split; [done|]. simpl. rewrite not_elem_of_cons. naive_solver.
Qed.
Lemma update_id k v e : k ∉ e.*1 -> update k v e = e.
Proof. induction e as [|[k' v'] e IH]; [done|]. simpl. rewrite not_elem_of_cons. intros [? ?]. unfold update in *. simpl. rewrite decide_False; [|done]. by rewrite IH. Qed.
Lemma update_mid k v v' e1 e2 : k ∉ e1.*1 -> k ∉ e2.*1 -> update k v (e1 ++ (k, v') :: e2) = e1 ++ (k, v) :: e2.
Proof.
  intros H1 H2. assert (forall a b, update k v (a ++ b) = update k v a ++ update k v b) as Happ. { intros. apply fmap_app. }
  rewrite Happ update_id //. change (update k v ((k, v') :: e2)) with ((if decide (k = k) then (k, v) else (k, v')) :: update k v e2). rewrite decide_True // update_id //.
Qed.
Lemma without_id k e : k ∉ e.*1 -> without k e = e.
Proof. induction e as [|[k' v'] e IH]; [done|]. simpl. rewrite not_elem_of_cons. intros [? ?]. rewrite decide_False; [|done]. by rewrite IH. Qed.
Lemma without_mid k v e1 e2 : k ∉ e1.*1 -> k ∉ e2.*1 -> without k (e1 ++ (k, v) :: e2) = e1 ++ e2.
Proof.
  intros H1 H2. induction e1 as [|[k' v'] e1 IH]; simpl in *; [by rewrite decide_True // without_id|]. apply not_elem_of_cons in H1 as [? ?]. rewrite decide_False; [|done]. by rewrite IH.
Qed.

(** The calls. *)
Definition post (o : op) (a : maps) (f : nat) (r : res) (f' : nat) : iP :=
  (∃ a', ⌈effect o a r a' \/ ((f < f' \/ too_big o a) /\ failed o a r a')⌉ ∗ all_maps a')%I.
Lemma arg_ext l : text_ok (Some l) -> ⊢ arg_at (O := obj) (CExt (l ++ [0%Z])) l.
Proof. intros [H _]. iPureIntro. split; [done|]. by exists []. Qed.
Lemma maps_open a h m : a !! h = Some m -> all_maps a -∗ is_map h m ∗ (∀ m', is_map h m' -∗ all_maps (<[h := m']> a)).
Proof. iIntros (H) "Ha". by iApply (big_sepM_insert_acc with "Ha"). Qed.
Lemma maps_fresh a h o : h ↦o o -∗ all_maps a -∗ ⌜a !! h = None⌝.
Proof.
  iIntros "Hh Ha". destruct (a !! h) as [m|] eqn:E; [|done]. iDestruct (maps_open with "Ha") as "[(%ks&%vs&_&Hm&_) _]"; [done|].
  iDestruct (obj_ne with "Hh Hm") as %?. done.
Qed.
Lemma maps_new a h m : a !! h = None -> is_map h m -∗ all_maps a -∗ all_maps (<[h := m]> a).
Proof. iIntros (H) "Hm Ha". iApply big_sepM_insert; [done|]. iFrame. Qed.

Lemma step_create fl a f : all_maps a -∗ wpi (run (Create fl)) f (post (Create fl) a f).
Proof.
  iIntros "Ha". iApply wpi_bind. iApply wpi_new_obj. iSplit.
  - iIntros (h) "Hh". iApply wpi_ret. iDestruct (maps_fresh with "Hh Ha") as %Hh. iExists (<[h := AMap [] fl]> a). iSplitR; [iPureIntro; left; by exists h|].
    iApply (maps_new with "[Hh] Ha"); [done|]. iExists None, None. iFrame. simpl. iPureIntro. split; [constructor|done].
  - iApply wpi_ret. iExists a. iFrame. iPureIntro. right. split; [left; lia|done].
Qed.
Lemma step_destroy h a f : live a h -> all_maps a -∗ wpi (run (Destroy h)) f (post (Destroy h) a f).
Proof.
  iIntros (Hl) "Ha". iApply wpi_bind. destruct h as [h|]; [|iApply wpi_ret; iApply wpi_ret; iExists a; iFrame; iPureIntro; by left].
  destruct Hl as [[e fl] Hm]. iDestruct (big_sepM_delete with "Ha") as "[(%ks&%vs&_&Hh&Hks&Hvs) Ha]"; [done|]. simpl.
  iApply wpi_bind. iApply (wpi_get_map with "Hh"). iIntros "Hh". cbn [count keys values].
  iAssert (post (Destroy (Some h)) a f RUnit f) with "[Ha]" as "HP". { iExists (delete h a). iFrame. iPureIntro. by left. }
  destruct e as [|[k v] e].
  - iDestruct "Hks" as %->. iDestruct "Hvs" as %->. simpl. iApply wpi_bind. iApply wpi_ret. iApply wpi_bind. iApply wpi_ret. iApply wpi_bind. iApply wpi_ret.
    iApply (wpi_free_map with "Hh"). by iApply wpi_ret.
  - iDestruct "Hks" as (hk) "[-> (%pk&%rk&Hk&Hsk)]". iDestruct "Hvs" as (hv) "[-> (%pv&%rv&Hv&Hsv)]".
    iDestruct (strs_length with "Hsk") as %Hlk. iDestruct (strs_length with "Hsv") as %Hlv.
    iApply wpi_bind. assert (length ((k, v) :: e) = length pk) as ->. { rewrite Hlk fmap_length. done. }
    iApply (wpi_free_both _ hk _ hv _ [] pk [] pv with "Hk Hv Hsk Hsv"); [done|done|intros; by apply cells_lookup|intros; by apply cells_lookup|done| |].
    { rewrite Hlk Hlv !fmap_length. done. }
    iIntros "Hk Hv". iApply wpi_bind. iApply (wpi_arr_free with "Hk"). iApply wpi_bind. iApply (wpi_arr_free with "Hv"). iApply (wpi_free_map with "Hh"). by iApply wpi_ret.
Qed.
Lemma step_clone h a f : live a h -> all_maps a -∗ wpi (run (Clone h)) f (post (Clone h) a f).
Proof.
  iIntros (Hl) "Ha". iApply wpi_bind. destruct h as [h|]; [|iApply wpi_ret; iApply wpi_ret; iExists a; iFrame; iPureIntro; by left].
  destruct Hl as [[e fl] Hm]. iDestruct (maps_open with "Ha") as "[(%ks&%vs&%Hnd&Hh&Hks&Hvs) Ha]"; [done|]. simpl.
  iApply wpi_bind. iApply (wpi_get_map with "Hh"). iIntros "Hh". cbn [count keys values filter].
  iAssert (∀ ks' vs', h ↦o OMap (MData ks' vs' (length e) fl) -∗ ovec ks' e.*1 -∗ ovec vs' e.*2 -∗ all_maps a)%I with "[Ha]" as "Ha".
  { iIntros (ks' vs') "Hh Hk Hv". iSpecialize ("Ha" $! (AMap e fl)). rewrite insert_id //. iApply "Ha". iExists ks', vs'. by iFrame. }
  iApply wpi_bind. iApply wpi_new_obj. iSplit.
  2:{ iApply wpi_ret. iApply wpi_ret. iExists a. iSplitR; [|iApply ("Ha" with "Hh Hks Hvs")]. iPureIntro. right. split; [left; lia|done]. }
  iIntros (h') "Hh'". destruct e as [|[k v] e].
  - simpl. iApply wpi_ret. iApply wpi_ret. iDestruct ("Ha" with "Hh Hks Hvs") as "Ha". iDestruct (maps_fresh with "Hh' Ha") as %Hfr.
    iExists (<[h' := AMap [] None]> a). iSplitR; [iPureIntro; left; exists (AMap [] fl); split; [done|]; by exists h'|].
    iApply (maps_new with "[Hh'] Ha"); [done|]. iExists None, None. iFrame. simpl. iPureIntro. split; [constructor|done].
  - destruct (decide (length ((k, v) :: e) = 0)) as [?|_]; [done|]. remember ((k, v) :: e) as ee eqn:Hee. assert (ee.*1 <> [] /\ ee.*2 <> []) as [Hn1 Hn2] by (by subst).
    assert (forall p ls, ls <> [] -> ovec p ls ⊢ ∃ h, ⌈p = Some h⌉ ∗ vec h ls) as Hov. { intros p ls Hne. by destruct ls. }
    iDestruct (Hov with "Hks") as (hk) "[-> Hks]"; [done|]. iDestruct (Hov with "Hvs") as (hv) "[-> Hvs]"; [done|].
    iApply wpi_bind. iApply (wpi_clone_vec with "Hks"); [by rewrite fmap_length|]. iIntros "Hks". iSplit.
    2:{ iIntros (f' Hf). iApply wpi_bind. iApply (wpi_free_map with "Hh'"). iApply wpi_ret. iApply wpi_ret. iExists a. iSplitR; [|iApply ("Ha" with "Hh [Hks] [Hvs]"); by iApply ovec_vec].
      iPureIntro. right. split; [|done]. destruct Hf as [|[(l&Hl1&Hl2)|Hf]]; [by left|right|right].
      - right. apply elem_of_list_fmap in Hl1 as ([k1 v1]&->&Hin). exists (AMap ee fl), k1, v1. auto.
      - left. exists (AMap ee fl). split; [done|]. rewrite fmap_length in Hf. simpl. lia. }
    iIntros (hk') "Hk'". iApply wpi_bind. iApply (wpi_clone_vec with "Hvs"); [by rewrite fmap_length|]. iIntros "Hvs". iSplit.
    2:{ iIntros (f' Hf). iApply wpi_bind. iDestruct "Hk'" as "(%pk&%rk&Hk&Hsk)". iDestruct (strs_length with "Hsk") as %Hlk. rewrite fmap_length in Hlk. rewrite -Hlk.
      iApply (wpi_free_from _ _ [] pk with "Hk Hsk"); [intros; by apply cells_lookup|]. iIntros "Hk". iApply wpi_bind. iApply (wpi_arr_free with "Hk").
      iApply wpi_bind. iApply (wpi_free_map with "Hh'"). iApply wpi_ret. iApply wpi_ret. iExists a. rewrite Hlk. iSplitR; [|iApply ("Ha" with "Hh [Hks] [Hvs]"); by iApply ovec_vec].
      iPureIntro. right. split; [|done]. destruct Hf as [|[(l&Hl1&Hl2)|Hf]]; [by left|right|right].
      - right. apply elem_of_list_fmap in Hl1 as ([k1 v1]&->&Hin). exists (AMap ee fl), k1, v1. auto.
      - left. exists (AMap ee fl). split; [done|]. rewrite fmap_length in Hf. simpl. lia. }
    iIntros (hv') "Hv'". iApply wpi_bind. iApply (wpi_set_map with "Hh'"). iIntros "Hh'". iApply wpi_ret. iApply wpi_ret.
    iDestruct ("Ha" with "Hh [Hks] [Hvs]") as "Ha"; [by iApply ovec_vec..|]. iDestruct (maps_fresh with "Hh' Ha") as %Hfr.
    iExists (<[h' := AMap ee fl]> a). iSplitR.
    { iPureIntro. left. exists (AMap ee fl). split; [done|]. exists h'. simpl. subst ee. done. }
    iApply (maps_new with "[-Ha] Ha"); [done|]. iExists (Some hk'), (Some hv'). simpl. iFrame. iSplitR; [done|]. iSplitL "Hk'"; by iApply ovec_vec.
Qed.
Lemma strs_cons_inv ps l ls : strs ps (l :: ls) -∗ ∃ p ps', ⌈ps = p :: ps'⌉ ∗ str_at p l ∗ strs ps' ls.
Proof. iIntros "H". destruct ps as [|p ps]; [done|]. iDestruct "H" as "[H1 H2]". iExists p, ps. by iFrame. Qed.
Lemma strs_app_inv ps l1 l2 : strs ps (l1 ++ l2) -∗ ∃ ps1 ps2, ⌈ps = ps1 ++ ps2 /\ length ps1 = length l1 /\ length ps2 = length l2⌉ ∗ strs ps1 l1 ∗ strs ps2 l2.
Proof.
  iIntros "H". iDestruct (big_sepL2_app_inv_r with "H") as (ps1 ps2 ->) "[H1 H2]". iExists ps1, ps2.
  iDestruct (strs_length with "H1") as %?. iDestruct (strs_length with "H2") as %?. iFrame. done.
Qed.
Lemma vec_split h l1 x l2 : vec h (l1 ++ x :: l2) -∗ ∃ ps1 p ps2 rest, ⌈length ps1 = length l1 /\ length ps2 = length l2⌉ ∗
  arr_at h (cellsof ps1 ++ Some (Some p) :: cellsof ps2 ++ rest) ∗ strs ps1 l1 ∗ str_at p x ∗ strs ps2 l2.
Proof.
  iIntros "(%ps&%rest&Ha&Hs)". iDestruct (strs_app_inv with "Hs") as (ps1 ps2 (->&Hl&Hl2)) "[H1 H2]".
  iDestruct (strs_cons_inv with "H2") as (p ps') "(->&Hp&H2)". iExists ps1, p, ps', rest. rewrite fmap_app -assoc_L /=. iFrame. iPureIntro. simpl in *. lia.
Qed.
Lemma vec_join h ps1 p ps2 rest l1 x l2 : arr_at h (cellsof ps1 ++ Some (Some p) :: cellsof ps2 ++ rest) -∗ strs ps1 l1 -∗ str_at p x -∗ strs ps2 l2 -∗ vec h (l1 ++ x :: l2).
Proof.
  iIntros "Ha H1 Hp H2". iExists (ps1 ++ p :: ps2), rest. rewrite fmap_app -assoc_L /=. iFrame "Ha". iApply (strs_app with "H1"). iFrame.
Qed.
Lemma ovec_some p ls : ls <> [] -> ovec p ls ⊢ ∃ h, ⌈p = Some h⌉ ∗ vec h ls.
Proof. intros Hne. by destruct ls. Qed.
(** memmove over the removed cell. *)
Lemma wpi_remove h ps1 x ps2 rest l1 l2 d i n f (Q : unit -> nat -> iP) : d = length ps1 -> i = d + 1 -> n = length ps2 ->
  arr_at h (cellsof ps1 ++ x :: cellsof ps2 ++ rest) -∗ strs ps1 l1 -∗ strs ps2 l2 -∗ (vec_plus h (l1 ++ l2) -∗ Q tt f) -∗ wpi (arr_move (Some h) d i n) f Q.
Proof.
  iIntros (-> -> ->) "Ha H1 H2 H". iApply (wpi_arr_move with "Ha"). { rewrite app_length /= app_length !fmap_length. lia. } { rewrite app_length /= app_length !fmap_length. lia. }
  iIntros "Ha". iApply "H".
  assert (exists y r, drop (length ps2) (x :: cellsof ps2 ++ rest) = y :: r) as (y&r&E).
  { destruct (drop (length ps2) (x :: cellsof ps2 ++ rest)) as [|y r] eqn:E; [|eauto]. apply (f_equal length) in E. rewrite drop_length /= app_length fmap_length in E. lia. }
  assert (take (length ps1) (cellsof ps1 ++ x :: cellsof ps2 ++ rest) ++ take (length ps2) (drop (length ps1 + 1) (cellsof ps1 ++ x :: cellsof ps2 ++ rest)) ++
    drop (length ps1 + length ps2) (cellsof ps1 ++ x :: cellsof ps2 ++ rest) = cellsof (ps1 ++ ps2) ++ y :: r) as ->.
  { rewrite take_app_alt; last by rewrite fmap_length. rewrite drop_app_ge; last (rewrite fmap_length; lia). rewrite drop_app_ge; last (rewrite fmap_length; lia).
    rewrite fmap_length. replace (length ps1 + length ps2 - length ps1) with (length ps2); last lia. rewrite E. replace (length ps1 + 1 - length ps1) with 1; last lia.
    rewrite skipn_cons drop_0 take_app_alt; last by rewrite fmap_length. rewrite fmap_app -assoc_L //. }
  iExists (ps1 ++ ps2), y, r. iFrame "Ha". iApply (strs_app with "H1 H2").
Qed.

Lemma open_map a h e fl : a !! h = Some (AMap e fl) -> all_maps a -∗ ∃ ks vs, ⌈NoDup e.*1⌉ ∗ h ↦o OMap (MData ks vs (length e) fl) ∗ ovec ks e.*1 ∗ ovec vs e.*2 ∗
  (∀ e' fl' ks' vs', ⌈NoDup e'.*1⌉ -∗ h ↦o OMap (MData ks' vs' (length e') fl') -∗ ovec ks' e'.*1 -∗ ovec vs' e'.*2 -∗ all_maps (<[h := AMap e' fl']> a)).
Proof.
  iIntros (H) "Ha". iDestruct (maps_open with "Ha") as "[(%ks&%vs&%Hnd&Hh&Hks&Hvs) Ha]"; [done|]. iExists ks, vs. iFrame. iSplitR; [done|].
  iIntros (e' fl' ks' vs' Hnd') "Hh Hks Hvs". iApply "Ha". iExists ks', vs'. by iFrame.
Qed.
Lemma live_some a h : live a (Some h) -> exists e fl, a !! h = Some (AMap e fl).
Proof. intros [[e fl] H]. eauto. Qed.
Lemma nodup_app_key e k v : NoDup e.*1 -> k ∉ e.*1 -> NoDup (e ++ [(k, v)]).*1.
Proof. intros H Hk. rewrite fmap_app /=. apply NoDup_app. split; [done|]. split; [|apply NoDup_singleton]. intros x Hx Hx'. apply elem_of_list_singleton in Hx'. by subst. Qed.
Lemma nodup_mid e1 e2 k v : NoDup (e1 ++ (k, v) :: e2).*1 -> k ∉ e1.*1 /\ k ∉ e2.*1 /\ NoDup (e1 ++ e2).*1 /\ forall v', NoDup (e1 ++ (k, v') :: e2).*1.
Proof.
  rewrite !fmap_app /=. intros H. assert (forall v' : text, NoDup (e1 ++ (k, v') :: e2).*1) as H'. { intros v'. rewrite fmap_app /=. done. }
  apply NoDup_app in H as (H1&H2&H3). apply NoDup_cons in H3 as [H3 H4].
  split; [intros Hk; by eapply H2; [exact Hk|left]|]. split; [done|]. split; [|done]. apply NoDup_app. split; [done|]. split; [|done]. intros x Hx Hx'. eapply H2; [exact Hx|by right].
Qed.

Ltac bad_arg a := do 2 iApply wpi_ret; iExists a; iFrame; iPureIntro; by left.

Lemma step_add h k v a f : live a h -> text_ok k -> text_ok v -> all_maps a -∗ wpi (run (Add h k v)) f (post (Add h k v) a f).
Proof.
  iIntros (Hl Hk Hv) "Ha". iApply wpi_bind. destruct h as [h|]; [|bad_arg a]. destruct k as [k|]; [|bad_arg a]. destruct v as [v|]; [|bad_arg a].
  apply live_some in Hl as (e&fl&Hm). iDestruct (open_map with "Ha") as (ks vs) "(%Hnd&Hh&Hks&Hvs&Ha)"; [done|]. simpl.
  iAssert (arg_at (O := obj) (CExt (k ++ [0%Z])) k) with "[]" as "Hck"; [by iApply arg_ext|].
  iAssert (arg_at (O := obj) (CExt (v ++ [0%Z])) v) with "[]" as "Hcv"; [by iApply arg_ext|].
  iApply wpi_bind. iApply (wpi_get_map with "Hh"). iIntros "Hh". iApply wpi_bind. iApply (wpi_find true with "Hks Hck"); [by rewrite fmap_length|]. iIntros "Hks _". simpl.
  destruct (pos k e.*1) as [i|] eqn:Hp.
  { iApply wpi_ret. iApply wpi_ret. iExists a. iSplitR.
    - iPureIntro. left. exists (AMap e fl). split; [done|]. simpl. destruct (assoc k e) eqn:Ha; [done|]. apply assoc_none, pos_none in Ha. congruence.
    - iSpecialize ("Ha" $! e fl with "[//] Hh Hks Hvs"). rewrite insert_id //. }
  apply pos_none in Hp. pose proof (proj2 (assoc_none _ _) Hp) as Has.
  iApply wpi_bind. iApply (wpi_rejected with "Hck Hcv"). iIntros "_ _". simpl. destruct (rejects fl k v) eqn:Hr.
  { iApply wpi_ret. iApply wpi_ret. iExists a. iSplitR.
    - iPureIntro. left. exists (AMap e fl). split; [done|]. simpl. by rewrite Has Hr.
    - iSpecialize ("Ha" $! e fl with "[//] Hh Hks Hvs"). rewrite insert_id //. }
  iApply wpi_bind. iApply (wpi_insert with "Hh Hks Hvs Hck Hcv"); [by rewrite fmap_length..|]. iSplit.
  - iIntros (ks' vs') "Hh Hks Hvs _ _". iApply wpi_ret. iApply wpi_ret. iExists (<[h := AMap (e ++ [(k, v)]) fl]> a). iSplitR.
    + iPureIntro. left. exists (AMap e fl). split; [done|]. simpl. by rewrite Has Hr.
    + iApply ("Ha" with "[] [Hh] [Hks] [Hvs]"); [iPureIntro; by apply nodup_app_key|by rewrite app_length|by rewrite fmap_app|by rewrite fmap_app].
  - iIntros (ks' vs' fl' f' [Hf Hfl]) "Hh Hks Hvs _ _". iApply wpi_ret. iApply wpi_ret.
    iExists (<[h := AMap e fl']> a). iSplitR; [|iApply ("Ha" with "[//] Hh Hks Hvs")]. iPureIntro. right. split.
    + destruct Hf as [|[?|?]]; [by left|right; left; exists (AMap e fl); done|right; by right].
    + split; [done|]. destruct Hfl as [->|[He ->]]; [left; by rewrite insert_id|]. destruct e; [|done]. right. by exists fl.
Qed.
Lemma step_update h k v a f : live a h -> text_ok k -> text_ok v -> all_maps a -∗ wpi (run (AddOrUpdate h k v)) f (post (AddOrUpdate h k v) a f).
Proof.
  iIntros (Hl Hk Hv) "Ha". iApply wpi_bind. destruct h as [h|]; [|bad_arg a]. destruct k as [k|]; [|bad_arg a]. destruct v as [v|]; [|bad_arg a].
  apply live_some in Hl as (e&fl&Hm). iDestruct (open_map with "Ha") as (ks vs) "(%Hnd&Hh&Hks&Hvs&Ha)"; [done|]. simpl.
  iAssert (arg_at (O := obj) (CExt (k ++ [0%Z])) k) with "[]" as "Hck"; [by iApply arg_ext|].
  iAssert (arg_at (O := obj) (CExt (v ++ [0%Z])) v) with "[]" as "Hcv"; [by iApply arg_ext|].
  iApply wpi_bind. iApply (wpi_get_map with "Hh"). iIntros "Hh".
  iApply wpi_bind. iApply (wpi_rejected with "Hck Hcv"). iIntros "_ _". simpl. destruct (rejects fl k v) eqn:Hr.
  { iApply wpi_ret. iApply wpi_ret. iExists a. iSplitR.
    - iPureIntro. left. exists (AMap e fl). split; [done|]. simpl. by rewrite Hr.
    - iSpecialize ("Ha" $! e fl with "[//] Hh Hks Hvs"). rewrite insert_id //. }
  iApply wpi_bind. iApply (wpi_find true with "Hks Hck"); [by rewrite fmap_length|]. iIntros "Hks _". simpl. destruct (pos k e.*1) as [i|] eqn:Hp.
  - apply split_at in Hp as (e1&v0&e2&->&Hi&Hk1). destruct (nodup_mid _ _ _ _ Hnd) as (_&Hk2&_&Hnd').
    iApply wpi_bind. iApply (wpi_strlen with "Hcv"). iIntros "_". rewrite !fmap_app !fmap_cons /=.
    iDestruct (ovec_some with "Hvs") as (hv) "[-> Hvs]"; [by destruct e1|]. iDestruct (vec_split with "Hvs") as (ps1 p ps2 rest [Hl1 Hl2]) "(Hvs&H1&Hp&H2)". rewrite fmap_length in Hl1.
    iApply wpi_bind. iApply (wpi_arr_get with "Hvs"). { rewrite lookup_app_r; last (rewrite fmap_length; lia). rewrite fmap_length. replace (i - length ps1) with 0; last lia. done. } iIntros "Hvs".
    iApply wpi_bind. unfold realloc_flex. destruct Hv as [Hvz Hv]. unfold flex. rewrite decide_True; last (unfold size_max; lia). iDestruct "Hp" as (r0) "[%Hz0 Hp]". iApply (wpi_realloc with "Hp"). iSplit.
    + iIntros (q) "Hq". iApply wpi_bind. iApply (wpi_strcpy with "Hq Hcv"). { rewrite app_length take_length replicate_length. lia. } iIntros "Hq _".
      iApply wpi_bind. iApply (wpi_arr_set with "Hvs"). { rewrite app_length fmap_length /=. lia. } iIntros "Hvs".
      rewrite insert_app_r_alt; last (rewrite fmap_length; lia). rewrite fmap_length. replace (i - length ps1) with 0; last lia. simpl.
      iApply wpi_ret. iApply wpi_ret. iExists (<[h := AMap (e1 ++ (k, v) :: e2) fl]> a). iSplitR.
      * iPureIntro. left. exists (AMap (e1 ++ (k, v0) :: e2) fl). split; [done|]. simpl. rewrite Hr assoc_mid // update_mid //.
      * iApply ("Ha" with "[] [Hh] [Hks] [-]"); [done|by rewrite !app_length|by rewrite fmap_app fmap_cons|]. rewrite fmap_app fmap_cons /=. iApply ovec_vec; [by destruct e1|].
        iApply (vec_join with "Hvs H1 Hq H2").
    + iIntros "Hp". iApply wpi_ret. iApply wpi_ret. iExists a. iSplitR.
      * iPureIntro. right. split; [left; lia|]. split; [done|by left].
      * iSpecialize ("Ha" $! (e1 ++ (k, v0) :: e2) fl with "[//] Hh [Hks] [-]"); [by rewrite fmap_app fmap_cons| |rewrite insert_id //].
        rewrite fmap_app fmap_cons /=. iApply ovec_vec; [by destruct e1|]. iApply (vec_join with "Hvs H1 [Hp] H2"). iExists r0. by iFrame.
  - apply pos_none in Hp. pose proof (proj2 (assoc_none _ _) Hp) as Has.
    iApply wpi_bind. iApply (wpi_insert with "Hh Hks Hvs Hck Hcv"); [by rewrite fmap_length..|]. iSplit.
    + iIntros (ks' vs') "Hh Hks Hvs _ _". iApply wpi_ret. iApply wpi_ret. iExists (<[h := AMap (e ++ [(k, v)]) fl]> a). iSplitR.
      * iPureIntro. left. exists (AMap e fl). split; [done|]. simpl. by rewrite Has Hr.
      * iApply ("Ha" with "[] [Hh] [Hks] [Hvs]"); [iPureIntro; by apply nodup_app_key|by rewrite app_length|by rewrite fmap_app|by rewrite fmap_app].
    + iIntros (ks' vs' fl' f' [Hf Hfl]) "Hh Hks Hvs _ _". iApply wpi_ret. iApply wpi_ret.
      iExists (<[h := AMap e fl']> a). iSplitR; [|iApply ("Ha" with "[//] Hh Hks Hvs")]. iPureIntro. right. split.
      * destruct Hf as [|[?|?]]; [by left|right; left; exists (AMap e fl); done|right; by right].
      * split; [done|]. destruct Hfl as [->|[He ->]]; [left; by rewrite insert_id|]. destruct e; [|done]. right. by exists fl.
Qed.
Lemma step_delete h k a f : live a h -> text_ok k -> all_maps a -∗ wpi (run (Delete h k)) f (post (Delete h k) a f).
Proof.
  iIntros (Hl Hk) "Ha". iApply wpi_bind. destruct h as [h|]; [|bad_arg a]. destruct k as [k|]; [|bad_arg a].
  apply live_some in Hl as (e&fl&Hm). iDestruct (open_map with "Ha") as (ks vs) "(%Hnd&Hh&Hks&Hvs&Ha)"; [done|]. simpl.
  iAssert (arg_at (O := obj) (CExt (k ++ [0%Z])) k) with "[]" as "Hck"; [by iApply arg_ext|].
  iApply wpi_bind. iApply (wpi_get_map with "Hh"). iIntros "Hh".
  iApply wpi_bind. iApply (wpi_find true with "Hks Hck"); [by rewrite fmap_length|]. iIntros "Hks _". simpl. destruct (pos k e.*1) as [i|] eqn:Hp.
  - apply split_at in Hp as (e1&v0&e2&->&Hi&Hk1). destruct (nodup_mid _ _ _ _ Hnd) as (_&Hk2&Hnd'&_). rewrite app_length /= in Hnd |- *.
    rewrite !fmap_app !fmap_cons /=. replace (length e1 + S (length e2)) with (length (e1 ++ e2) + 1); last (rewrite app_length; lia).
    iDestruct (ovec_some with "Hks") as (hk) "[-> Hks]"; [by destruct e1|]. iDestruct (vec_split with "Hks") as (pk1 p pk2 rest [Hl1 Hl2]) "(Hks&H1&Hp&H2)".
    iDestruct (ovec_some with "Hvs") as (hv) "[-> Hvs]"; [by destruct e1|]. iDestruct (vec_split with "Hvs") as (pv1 q pv2 rest' [Hl3 Hl4]) "(Hvs&H3&Hq&H4)".
    rewrite fmap_length in Hl1. rewrite fmap_length in Hl2. rewrite fmap_length in Hl3. rewrite fmap_length in Hl4.
    iApply wpi_bind. iApply (wpi_arr_get with "Hks"). { rewrite lookup_app_r; last (rewrite fmap_length; lia). rewrite fmap_length. replace (i - length pk1) with 0; last lia. done. } iIntros "Hks".
    iApply wpi_bind. iApply (wpi_free_str with "Hp").
    iApply wpi_bind. iApply (wpi_arr_get with "Hvs"). { rewrite lookup_app_r; last (rewrite fmap_length; lia). rewrite fmap_length. replace (i - length pv1) with 0; last lia. done. } iIntros "Hvs".
    iApply wpi_bind. iApply (wpi_free_str with "Hq"). assert (length (e1 ++ e2) + 1 - i - 1 = length e2) as ->. { rewrite app_length. lia. }
    iApply wpi_bind. iApply (wpi_remove with "Hks H1 H2"); [lia..|]. iIntros "Hks".
    iApply wpi_bind. iApply (wpi_remove with "Hvs H3 H4"); [lia..|]. iIntros "Hvs".
    iApply wpi_bind. iApply (wpi_decrease with "Hh Hks Hvs"). { rewrite !app_length !fmap_length. done. } { rewrite !app_length !fmap_length. done. }
    iIntros (ks' vs' f' Hf) "Hh Hks Hvs". iApply wpi_ret. iApply wpi_ret.
    iExists (<[h := AMap (e1 ++ e2) (kept (e1 ++ e2) fl)]> a). iSplitR.
    + iPureIntro. left. exists (AMap (e1 ++ (k, v0) :: e2) fl). split; [done|]. simpl. rewrite assoc_mid // without_mid //.
    + iApply ("Ha" $! (e1 ++ e2) with "[//] [Hh] [Hks] [Hvs]"); [|by rewrite fmap_app..].
      assert (match e1.*1 ++ e2.*1 with [] => None | _ => fl end = kept (e1 ++ e2) fl) as ->; [by destruct e1, e2|]. done.
  - apply pos_none in Hp. pose proof (proj2 (assoc_none _ _) Hp) as Has. iApply wpi_ret. iApply wpi_ret. iExists a. iSplitR.
    + iPureIntro. left. exists (AMap e fl). split; [done|]. simpl. by rewrite Has.
    + iSpecialize ("Ha" $! e fl with "[//] Hh Hks Hvs"). rewrite insert_id //.
Qed.
Lemma pos_bool k ks : bool_decide (is_Some (pos k ks)) = bool_decide (k ∈ ks).
Proof. apply bool_decide_ext. rewrite -not_eq_None_Some pos_none. destruct (decide (k ∈ ks)); tauto. Qed.
Lemma step_contains (key : bool) h k out a f : live a h -> text_ok k ->
  all_maps a -∗ wpi (run ((if key then ContainsKey else ContainsValue) h k out)) f (post ((if key then ContainsKey else ContainsValue) h k out) a f).
Proof.
  iIntros (Hl Hk) "Ha". destruct h as [h|]; [|destruct key; iApply wpi_bind; bad_arg a]. destruct k as [k|]; [|destruct key; iApply wpi_bind; bad_arg a].
  destruct out; [|destruct key; iApply wpi_bind; bad_arg a].
  apply live_some in Hl as (e&fl&Hm). iDestruct (open_map with "Ha") as (ks vs) "(%Hnd&Hh&Hks&Hvs&Ha)"; [done|].
  iAssert (arg_at (O := obj) (CExt (k ++ [0%Z])) k) with "[]" as "Hck"; [by iApply arg_ext|].
  destruct key; (iApply wpi_bind; iApply wpi_bind; iApply (wpi_get_map with "Hh"); iIntros "Hh"; iApply wpi_bind).
  - iApply (wpi_find true with "Hks Hck"); [by rewrite fmap_length|]. iIntros "Hks _". simpl. iApply wpi_ret. iApply wpi_ret. iExists a. iSplitR.
    + iPureIntro. left. exists (AMap e fl). split; [done|]. simpl. by rewrite pos_bool.
    + iSpecialize ("Ha" $! e fl with "[//] Hh Hks Hvs"). rewrite insert_id //.
  - iApply (wpi_find false with "Hvs Hck"); [by rewrite fmap_length|]. iIntros "Hvs _". simpl. iApply wpi_ret. iApply wpi_ret. iExists a. iSplitR.
    + iPureIntro. left. exists (AMap e fl). split; [done|]. simpl. by rewrite pos_bool.
    + iSpecialize ("Ha" $! e fl with "[//] Hh Hks Hvs"). rewrite insert_id //.
Qed.
Lemma step_get h k a f : live a h -> text_ok k -> all_maps a -∗ wpi (run (GetValueFromKey h k)) f (post (GetValueFromKey h k) a f).
Proof.
  iIntros (Hl Hk) "Ha". iApply wpi_bind. destruct h as [h|]; [|bad_arg a]. destruct k as [k|]; [|bad_arg a].
  apply live_some in Hl as (e&fl&Hm). iDestruct (open_map with "Ha") as (ks vs) "(%Hnd&Hh&Hks&Hvs&Ha)"; [done|]. simpl.
  iAssert (arg_at (O := obj) (CExt (k ++ [0%Z])) k) with "[]" as "Hck"; [by iApply arg_ext|].
  iApply wpi_bind. iApply (wpi_get_map with "Hh"). iIntros "Hh".
  iApply wpi_bind. iApply (wpi_find true with "Hks Hck"); [by rewrite fmap_length|]. iIntros "Hks _". simpl. destruct (pos k e.*1) as [i|] eqn:Hp.
  - apply split_at in Hp as (e1&v0&e2&->&Hi&Hk1). rewrite (fmap_app snd) (fmap_cons snd) /=.
    iDestruct (ovec_some with "Hvs") as (hv) "[-> Hvs]"; [by destruct e1|]. iDestruct (vec_split with "Hvs") as (pv1 q pv2 rest' [Hl3 Hl4]) "(Hvs&H3&Hq&H4)". rewrite fmap_length in Hl3.
    iApply (wpi_arr_get with "Hvs"). { rewrite lookup_app_r; last (rewrite fmap_length; lia). rewrite fmap_length. replace (i - length pv1) with 0; last lia. done. } iIntros "Hvs".
    iApply wpi_bind. iApply (wpi_text_of (CPtr q) with "Hq"). iIntros "Hq". iApply wpi_ret. iExists a. iSplitR.
    + iPureIntro. left. exists (AMap (e1 ++ (k, v0) :: e2) fl). split; [done|]. simpl. rewrite assoc_mid //.
    + iSpecialize ("Ha" $! (e1 ++ (k, v0) :: e2) fl with "[//] Hh Hks [-]"); [|rewrite insert_id //]. rewrite (fmap_app snd) (fmap_cons snd) /=. iApply ovec_vec; [by destruct e1|].
      iApply (vec_join with "Hvs H3 Hq H4").
  - apply pos_none in Hp. pose proof (proj2 (assoc_none _ _) Hp) as Has. iApply wpi_ret. iApply wpi_ret. iExists a. iSplitR.
    + iPureIntro. left. exists (AMap e fl). split; [done|]. simpl. by rewrite Has.
    + iSpecialize ("Ha" $! e fl with "[//] Hh Hks Hvs"). rewrite insert_id //.
Qed.
Lemma wpi_read_all hk ak hv av pk1 pk pv1 pv e f (Q : list (text * text) -> nat -> iP) :
  (forall i p, (pk1 ++ pk) !! i = Some p -> ak !! i = Some (Some (Some p))) -> (forall i p, (pv1 ++ pv) !! i = Some p -> av !! i = Some (Some (Some p))) ->
  length pk1 = length pv1 ->
  arr_at hk ak -∗ arr_at hv av -∗ strs pk e.*1 -∗ strs pv e.*2 -∗ (arr_at hk ak -∗ arr_at hv av -∗ strs pk e.*1 -∗ strs pv e.*2 -∗ Q e f) -∗
  wpi (read_all (Some hk) (Some hv) (length pk1) (length e)) f Q.
Proof.
  revert pk1 pk pv1 pv Q. induction e as [|[k v] e IH]; iIntros (pk1 pk pv1 pv Q Hak Hav Hl1) "Ha Hb Hs Ht H".
  { simpl. iApply wpi_ret. iApply ("H" with "Ha Hb Hs Ht"). }
  destruct pk as [|p pk]; [done|]. destruct pv as [|q pv]; [done|]. iDestruct "Hs" as "[Hp Hs]". iDestruct "Ht" as "[Hq Ht]". simpl.
  iApply wpi_bind. iApply (wpi_arr_get with "Ha"). { apply Hak. rewrite lookup_app_r // Nat.sub_diag //. } iIntros "Ha". iApply wpi_bind. iApply wpi_ret.
  iApply wpi_bind. iApply (wpi_text_of (CPtr p) with "Hp"). iIntros "Hp".
  iApply wpi_bind. iApply (wpi_arr_get with "Hb"). { apply Hav. rewrite Hl1 lookup_app_r // Nat.sub_diag //. } iIntros "Hb". iApply wpi_bind. iApply wpi_ret.
  iApply wpi_bind. iApply (wpi_text_of (CPtr q) with "Hq"). iIntros "Hq". iApply wpi_bind.
  assert (S (length pk1) = length (pk1 ++ [p])) as ->. { rewrite app_length /=. lia. }
  iApply (IH _ pk (pv1 ++ [q]) pv with "Ha Hb Hs Ht"); [by rewrite -assoc_L|by rewrite -assoc_L|by rewrite !app_length Hl1|].
  iIntros "Ha Hb Hs Ht". iApply wpi_ret. iApply ("H" with "Ha Hb [Hp Hs] [Hq Ht]"); iFrame.
Qed.
Lemma step_internals h out a f : live a h -> all_maps a -∗ wpi (run (GetInternals h out)) f (post (GetInternals h out) a f).
Proof.
  iIntros (Hl) "Ha". iApply wpi_bind. destruct h as [h|]; [|bad_arg a]. destruct out; [|bad_arg a].
  apply live_some in Hl as (e&fl&Hm). iDestruct (open_map with "Ha") as (ks vs) "(%Hnd&Hh&Hks&Hvs&Ha)"; [done|]. simpl.
  iApply wpi_bind. iApply (wpi_get_map with "Hh"). iIntros "Hh". iApply wpi_ret. cbn [keys values count]. iApply wpi_bind.
  destruct e as [|x e].
  - simpl. iApply wpi_ret. iApply wpi_ret. iExists a. iSplitR; [iPureIntro; left; exists (AMap [] fl); done|].
    iSpecialize ("Ha" $! [] fl with "[//] Hh Hks Hvs"). rewrite insert_id //.
  - remember (x :: e) as ee eqn:Hee. assert (ee.*1 <> [] /\ ee.*2 <> []) as [Hn1 Hn2] by (by subst).
    iDestruct (ovec_some with "Hks") as (hk) "[-> (%pk&%rk&Hk&Hsk)]"; [done|]. iDestruct (ovec_some with "Hvs") as (hv) "[-> (%pv&%rv&Hv&Hsv)]"; [done|].
    iApply (wpi_read_all hk _ hv _ [] pk [] pv with "Hk Hv Hsk Hsv"); [intros; by apply cells_lookup|intros; by apply cells_lookup|done|].
    iIntros "Hk Hv Hsk Hsv". iApply wpi_ret. iExists a. iSplitR; [iPureIntro; left; by exists (AMap ee fl)|].
    iSpecialize ("Ha" $! ee fl with "[//] Hh [Hk Hsk] [Hv Hsv]"); [iApply ovec_vec; [done|]; iExists _, _; iFrame..|rewrite insert_id //].
Qed.
Lemma step o a f : allowed a o -> all_maps a -∗ wpi (run o) f (post o a f).
Proof.
  destruct o; simpl; intros Hal.
  - apply step_create. - by apply step_destroy. - by apply step_clone. - apply step_add; tauto. - apply step_update; tauto. - apply step_delete; tauto.
  - apply (step_contains true); tauto. - apply (step_contains false); tauto. - apply step_get; tauto. - by apply step_internals.
Qed.

(** The heap of a state holds exactly these maps. *)
Definition reps (s : st obj) (a : maps) : Prop := hholds (all_maps a) (Piece (mem s) (objs s)).
Lemma step_ok o s a : reps s a -> allowed a o ->
  exists r s' a', run o s = Done (r, s') /\ reps s' a' /\ (effect o a r a' \/ ((fails s < fails s' \/ too_big o a) /\ failed o a r a')).
Proof.
  intros R Hal. destruct (wpi_run (run o) (post o a (fails s)) s) as (r&s'&Hr&_&HP). { eapply holds_mono; [|exact R]. by apply step. }
  destruct HP as (a'&r1&r2&E&Hd&[Hemp He]&Hm). exists r, s', a'. split; [done|]. split; [|done].
  unfold reps. rewrite E. change (r1 = pempty) in Hemp. subst r1. by rewrite punion_empty_l.
Qed.
Lemma reps_empty orc f : reps (St ∅ ∅ orc f) ∅.
Proof. change (hholds (all_maps ∅) pempty). apply (holds_mono emp%I); [|done]. by rewrite /all_maps big_sepM_empty. Qed.
Lemma reps_no_leak s : reps s ∅ -> mem s = ∅ /\ objs s = ∅.
Proof.
  intros R. assert (hholds (emp%I : iP) (Piece (mem s) (objs s))) as E. { eapply holds_mono; [|exact R]. by rewrite /all_maps big_sepM_empty. }
  by injection E.
Qed.
Lemma reps_nodup s a h m : reps s a -> a !! h = Some m -> NoDup (entries m).*1.
Proof.
  intros R Hm. assert (hholds (⌜NoDup (entries m).*1⌝%I : iP) (Piece (mem s) (objs s))) as H; [|done]. eapply holds_mono; [|exact R].
  destruct m as [e fl]. iIntros "Ha". iDestruct (open_map with "Ha") as (ks vs) "(%Hnd&_)"; done.
Qed.
(** Rejected pairs are not stored, whatever else happens. *)
Lemma effect_filter o a r a' h m m' : effect o a r a' -> a !! h = Some m -> a' !! h = Some m' -> entries m' <> [] -> afilter m' = afilter m.
Proof.
  intros H Hm Hm' Hne.
  assert (forall h0 m0 m1, a !! h0 = Some m0 -> (entries m1 <> [] -> afilter m1 = afilter m0) -> <[h0 := m1]> a !! h = Some m' -> afilter m' = afilter m) as HI.
  { intros h0 m0 m1 H0 H1 H2. destruct (decide (h0 = h)) as [->|]; [rewrite lookup_insert in H2|rewrite lookup_insert_ne in H2; [|done]]; simplify_eq; auto. }
  assert (forall h0 m1, a !! h0 = None -> <[h0 := m1]> a !! h = Some m' -> afilter m' = afilter m) as HN.
  { intros h0 m1 H0 H2. rewrite lookup_insert_ne in H2; congruence. }
  assert (a' = a -> afilter m' = afilter m) as HS. { intros ->. congruence. }
  unfold effect, answers, creates, becomes in H.
  repeat match goal with H : exists _, _ |- _ => destruct H | H : _ /\ _ |- _ => destruct H | H : match ?x with _ => _ end |- _ => destruct x end; subst; try (by apply HS); try (by eauto).
  1: (match type of Hm' with delete ?p _ !! _ = _ => destruct (decide (p = h)) as [->|] end; [rewrite lookup_delete in Hm'|rewrite lookup_delete_ne in Hm'; [|done]]; congruence).
  all: (match goal with Hm' : <[?p := ?m1]> ?a !! _ = _, H : ?a !! ?p = Some ?m0 |- _ => eapply (HI p m0 m1); [exact H| |exact Hm'] end; simpl; try done; by destruct (without _ _)).
Qed.
Lemma failed_filter o a r a' h m m' : failed o a r a' -> a !! h = Some m -> a' !! h = Some m' -> entries m' <> [] -> afilter m' = afilter m.
Proof.
  intros H Hm Hm' Hne. destruct o as [?|?|?|[h0|] k v|[h0|] k v|? ?|? ? ?|? ? ?|? ?|? ?]; simpl in H; try done; try (destruct H as [_ ->]; congruence);
    destruct H as [_ [->|(f&Hf&->)]]; try congruence; (destruct (decide (h0 = h)) as [->|]; [rewrite lookup_insert in Hm'|rewrite lookup_insert_ne in Hm'; [|done]]; simplify_eq; done).
Qed.
Lemma add_reject h k v m a f : a !! h = Some m -> text_ok (Some k) -> text_ok (Some v) -> rejects (afilter m) k v = true ->
  all_maps a -∗ wpi (run (Add (Some h) (Some k) (Some v))) f (fun r _ => ∃ c, ⌈r = RCode c /\ (c = MAP_FILTER_REJECT \/ c = MAP_KEYEXISTS)⌉ ∗ all_maps a).
Proof.
  iIntros (Hm Hk Hv Hr) "Ha". iApply wpi_bind. destruct m as [e fl]. iDestruct (open_map with "Ha") as (ks vs) "(%Hnd&Hh&Hks&Hvs&Ha)"; [done|]. simpl.
  iAssert (arg_at (O := obj) (CExt (k ++ [0%Z])) k) with "[]" as "Hck"; [by iApply arg_ext|].
  iAssert (arg_at (O := obj) (CExt (v ++ [0%Z])) v) with "[]" as "Hcv"; [by iApply arg_ext|].
  iApply wpi_bind. iApply (wpi_get_map with "Hh"). iIntros "Hh". iApply wpi_bind. iApply (wpi_find true with "Hks Hck"); [by rewrite fmap_length|]. iIntros "Hks _". simpl.
  iSpecialize ("Ha" $! e fl with "[//] Hh Hks Hvs"). rewrite insert_id //. destruct (pos k e.*1) as [i|] eqn:Hp.
  { iApply wpi_ret. iApply wpi_ret. iExists MAP_KEYEXISTS. iFrame. iPureIntro. auto. }
  iApply wpi_bind. iApply (wpi_rejected with "Hck Hcv"). iIntros "_ _". simpl in *. rewrite Hr.
  iApply wpi_ret. iApply wpi_ret. iExists MAP_FILTER_REJECT. iFrame. iPureIntro. auto.
Qed.
Lemma update_reject h k v m a f : a !! h = Some m -> text_ok (Some k) -> text_ok (Some v) -> rejects (afilter m) k v = true ->
  all_maps a -∗ wpi (run (AddOrUpdate (Some h) (Some k) (Some v))) f (fun r _ => ⌈r = RCode MAP_FILTER_REJECT⌉ ∗ all_maps a).
Proof.
  iIntros (Hm Hk Hv Hr) "Ha". iApply wpi_bind. destruct m as [e fl]. iDestruct (open_map with "Ha") as (ks vs) "(%Hnd&Hh&Hks&Hvs&Ha)"; [done|]. simpl.
  iAssert (arg_at (O := obj) (CExt (k ++ [0%Z])) k) with "[]" as "Hck"; [by iApply arg_ext|].
  iAssert (arg_at (O := obj) (CExt (v ++ [0%Z])) v) with "[]" as "Hcv"; [by iApply arg_ext|].
  iApply wpi_bind. iApply (wpi_get_map with "Hh"). iIntros "Hh". iApply wpi_bind. iApply (wpi_rejected with "Hck Hcv"). iIntros "_ _". simpl in *. rewrite Hr.
  iSpecialize ("Ha" $! e fl with "[//] Hh Hks Hvs"). rewrite insert_id //.
  iApply wpi_ret. iApply wpi_ret. by iFrame.
Qed.
Lemma step_add_reject s a h m k v : reps s a -> a !! h = Some m -> text_ok (Some k) -> text_ok (Some v) -> rejects (afilter m) k v = true ->
  exists c s', (c = MAP_FILTER_REJECT \/ c = MAP_KEYEXISTS) /\ run (Add (Some h) (Some k) (Some v)) s = Done (RCode c, s') /\ reps s' a.
Proof.
  intros R Hm Hk Hv Hr. edestruct (wpi_run (run (Add (Some h) (Some k) (Some v)))) as (r&s'&Hrun&_&HP). { eapply holds_mono; [|exact R]. by eapply add_reject. }
  destruct HP as (c&r1&r2&E&Hd&[Hemp [-> Hc]]&Hm2). exists c, s'. split; [done|]. split; [done|].
  unfold reps. rewrite E. change (r1 = pempty) in Hemp. subst r1. by rewrite punion_empty_l.
Qed.
Lemma step_update_reject s a h m k v : reps s a -> a !! h = Some m -> text_ok (Some k) -> text_ok (Some v) -> rejects (afilter m) k v = true ->
  exists s', run (AddOrUpdate (Some h) (Some k) (Some v)) s = Done (RCode MAP_FILTER_REJECT, s') /\ reps s' a.
Proof.
  intros R Hm Hk Hv Hr. edestruct (wpi_run (run (AddOrUpdate (Some h) (Some k) (Some v)))) as (r&s'&Hrun&_&HP). { eapply holds_mono; [|exact R]. by eapply update_reject. }
  destruct HP as (r1&r2&E&Hd&[Hemp ->]&Hm2). exists s'. split; [done|].
  unfold reps. rewrite E. change (r1 = pempty) in Hemp. subst r1. by rewrite punion_empty_l.
Qed.
