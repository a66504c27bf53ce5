(** Proofs for CbcProps: the calls, continued. *)
From Verif Require Import CslRules Rc CslPool.
From Verif Require Import Common Block CMem Prog CbcModel CbcSpec CbcProofs CbcProofs2 CbcProofs3.

Lemma hold_arr_in a l from : Arr a l ∈ hold_arr (Some (a, l)) ++ from.
Proof. left. Qed.
Lemma is_zero {A} (l : list A) : len l = 0%Z -> l = [].
Proof. destruct l; [done|]. unfold len. simpl. lia. Qed.
Lemma spec_add_front a b from f : allowed (AddFront a b from) -> hold (hold_arr a ++ from) ⊢ goal_of (AddFront a b from) f.
Proof.
  intros Hb. iIntros "H". unfold run, constbuffer_array_add_front. destruct a as [[h l]|]; simpl.
  2: { step. iApply (finish (AddFront None b from)); [done|by apply makes_bad; intros []|]. by destruct b. }
  destruct b as [x|]; simpl. 2: { step. iApply (finish (AddFront (Some (h, l)) None from)); [done|by apply makes_bad; intros (_&[]&_)|done]. }
  destruct x as [b c]. simpl. set (o := AddFront (Some (h, l)) (Some (b, c)) from). set (fr := Arr h l :: from) in *. pose proof (hold_arr_in h l from) as Hin.
  sub. sub. iApply (f_node fr with "H"); [done|]. iIntros (n f1) "(%Hf1&%Hn&%Hl) H". rewrite Hn. destruct (decide _) as [Hm|Hm].
  { done_with. iApply (finish o); [done|apply makes_bad; simpl; lia|done]. }
  assert (Hs : u32 (len l + 1) = (len l + 1)%Z). { apply u32_small. unfold is_u32, len in *. lia. } rewrite Hs. assert (Hs' : Z.to_nat (len l + 1) = S (length l)) by (unfold len; lia).
  sub. iApply cwp_new_array. iSplit.
  - iIntros (a f2) "%Hf2 H1". rewrite Hs'. sub. iApply (f_inc fr _ (b, c) with "H"); [exact Hb|]. iIntros (f3) "%Hf3 H Hx". sub. iApply (cwp_append _ _ _ _ _ (b, c) with "H1"); [done|]. iIntros (f4) "%Hf4 H1". sub.
    replace (S (length l) - 1) with (length l) by lia. iEval (rewrite -(Nat.add_0_r (length l))) in "H1". iApply (cwp_copy (hold fr) with "H H1"); [done| | |].
    + intros j y f' Q Hj. simpl. rewrite Nat.sub_0_r. by apply (f_read fr _ h l).
    + intros y f' Q Hy. apply f_inc. by apply (reaches_arr _ h l).
    + iIntros (f5) "%Hf5 H H1 H2". simpl. assert (E : (len l + 1)%Z = len ((b, c) :: l)) by (unfold len; simpl; lia). rewrite E. iMod (share_built with "H1 [Hx H2]") as "H1"; [rewrite -E; lia|rewrite bufs_cons; iFrame|].
      done_with. iApply (finish o); [lia|apply makes_some; simpl; split; [done|split; [done|lia]]|]. simpl. rewrite hold_cons. iFrame.
  - iIntros (f2) "%Hf2". done_with. iApply (finish o); [lia|apply makes_fail; lia|done].
Qed.
Lemma spec_add_back a b from f : allowed (AddBack a b from) -> hold (hold_arr a ++ from) ⊢ goal_of (AddBack a b from) f.
Proof.
  intros Hb. iIntros "H". unfold run, constbuffer_array_add_back. destruct a as [[h l]|]; simpl.
  2: { step. iApply (finish (AddBack None b from)); [done|by apply makes_bad; intros []|]. by destruct b. }
  destruct b as [x|]; simpl. 2: { step. iApply (finish (AddBack (Some (h, l)) None from)); [done|by apply makes_bad; intros (_&[]&_)|done]. }
  destruct x as [b c]. simpl. set (o := AddBack (Some (h, l)) (Some (b, c)) from). set (fr := Arr h l :: from) in *. pose proof (hold_arr_in h l from) as Hin.
  sub. sub. iApply (f_node fr with "H"); [done|]. iIntros (n f1) "(%Hf1&%Hn&%Hl) H". rewrite Hn. destruct (decide _) as [Hm|Hm].
  { done_with. iApply (finish o); [done|apply makes_bad; simpl; lia|done]. }
  assert (Hs : u32 (len l + 1) = (len l + 1)%Z). { apply u32_small. unfold is_u32, len in *. lia. } rewrite Hs. assert (Hs' : Z.to_nat (len l + 1) = S (length l)) by (unfold len; lia).
  assert (Hs2 : Z.to_nat (u32 (len l + 1 - 1)) = length l). { rewrite u32_small; unfold is_u32, len in *; lia. } rewrite Hs2.
  sub. iApply cwp_new_array. iSplit.
  - iIntros (a f2) "%Hf2 H1". rewrite Hs'. sub. replace (S (length l)) with (length l + 1) by lia. iApply (cwp_copy (hold fr) with "H H1"); [done| | |].
    + intros j y f' Q Hj. simpl. by apply (f_read fr _ h l).
    + intros y f' Q Hy. apply f_inc. by apply (reaches_arr _ h l).
    + iIntros (f3) "%Hf3 H H1 H2". sub. iApply (f_inc fr _ (b, c) with "H"); [exact Hb|]. iIntros (f4) "%Hf4 H Hx". sub. iApply (cwp_append _ _ _ _ _ (b, c) with "H1"); [done|]. iIntros (f5) "%Hf5 H1".
      simpl. assert (E : (len l + 1)%Z = len (l ++ [(b, c)])) by (unfold len; rewrite app_length; simpl; lia). rewrite E. iMod (share_built with "H1 [Hx H2]") as "H1"; [rewrite -E; lia|rewrite bufs_app bufs_one; iFrame|].
      done_with. iApply (finish o); [lia|apply makes_some; simpl; split; [done|split; [done|lia]]|]. simpl. rewrite hold_cons. iFrame.
  - iIntros (f2) "%Hf2". done_with. iApply (finish o); [lia|apply makes_fail; lia|done].
Qed.
Lemma spec_remove_front a out f : hold (hold_arr a) ⊢ goal_of (RemoveFront a out) f.
Proof.
  iIntros "H". unfold run, constbuffer_array_remove_front. destruct a as [[h l]|]; simpl.
  2: { step. iApply (finish (RemoveFront None out)); [done|split; [by apply makes_bad; intros [_ []]|done]|done]. }
  destruct out; simpl. 2: { step. iApply (finish (RemoveFront (Some (h, l)) false)); [done|split; [by apply makes_bad; intros []|done]|done]. }
  set (o := RemoveFront (Some (h, l)) true). set (fr := [Arr h l]). assert (Hin : Arr h l ∈ fr) by left.
  sub. sub. iApply (f_node fr with "H"); [done|]. iIntros (n f1) "(%Hf1&%Hn&%Hl) H". rewrite Hn. destruct (decide _) as [Hm|Hm].
  { done_with. iApply (finish o); [done|split; [apply makes_bad; simpl; apply is_zero in Hm; by intros []|done]|done]. }
  destruct l as [|x l]; [done|]. assert (Hs : u32 (len (x :: l) - 1) = len l). { rewrite u32_small; unfold is_u32, len in *; simpl in *; lia. } rewrite Hs len_nat. replace (length (x :: l) - 1) with (length l) by (simpl; lia).
  sub. iApply cwp_new_array. iSplit.
  - iIntros (a f2) "%Hf2 H1". rewrite len_nat. sub. iApply (f_read fr _ h (x :: l) 0 x with "H"); [done..|]. iIntros (f3) "%Hf3 H". sub. iApply (f_inc fr with "H"); [apply (reaches_arr _ h (x :: l)); [done|left]|]. iIntros (f4) "%Hf4 H Hx".
    sub. iEval (rewrite -(Nat.add_0_r (length l))) in "H1". iApply (cwp_copy (hold fr) with "H H1"); [done| | |].
    + intros j y f' Q Hj. simpl. by apply (f_read fr _ h (x :: l)).
    + intros y f' Q Hy. apply f_inc. apply (reaches_arr _ h (x :: l)); [done|by right].
    + iIntros (f5) "%Hf5 H H1 H2". sub. iApply (f_read fr _ h (x :: l) 0 x with "H"); [done..|]. iIntros (f6) "%Hf6 H". simpl. iMod (share_built with "H1 H2") as "H1"; [unfold len in *; simpl in *; lia|].
      done_with. iApply (finish o); [lia|split; [by apply makes_some|by intros ?? [= <- <-]]|]. simpl. rewrite !hold_cons. destruct x. iFrame.
  - iIntros (f2) "%Hf2". done_with. iApply (finish o); [lia|split; [apply makes_fail; lia|done]|done].
Qed.
Lemma spec_remove_back a out f : hold (hold_arr a) ⊢ goal_of (RemoveBack a out) f.
Proof.
  iIntros "H". unfold run, constbuffer_array_remove_back. destruct a as [[h l]|]; simpl.
  2: { step. iApply (finish (RemoveBack None out)); [done|split; [by apply makes_bad; intros [_ []]|done]|done]. }
  destruct out; simpl. 2: { step. iApply (finish (RemoveBack (Some (h, l)) false)); [done|split; [by apply makes_bad; intros []|done]|done]. }
  set (o := RemoveBack (Some (h, l)) true). set (fr := [Arr h l]). assert (Hin : Arr h l ∈ fr) by left.
  sub. sub. iApply (f_node fr with "H"); [done|]. iIntros (n f1) "(%Hf1&%Hn&%Hl) H". rewrite Hn. destruct (decide _) as [Hm|Hm].
  { done_with. iApply (finish o); [done|split; [apply makes_bad; simpl; apply is_zero in Hm; by intros []|done]|done]. }
  destruct l as [|x l _] using rev_ind; [done|]. assert (Hs : u32 (len (l ++ [x]) - 1) = len l). { rewrite u32_small; unfold is_u32, len in *; rewrite app_length in Hl |- *; simpl in *; lia. } rewrite Hs len_nat.
  assert (Hlx : (l ++ [x]) !! length l = Some x) by by rewrite lookup_app_r // Nat.sub_diag.
  sub. iApply cwp_new_array. iSplit.
  - iIntros (a f2) "%Hf2 H1". rewrite len_nat. sub. iApply (f_read fr with "H"); [done..|]. iIntros (f3) "%Hf3 H". sub. iApply (f_inc fr with "H"); [apply (reaches_arr _ h (l ++ [x])); [done|apply elem_of_app; right; by left]|]. iIntros (f4) "%Hf4 H Hx".
    sub. iApply (f_read fr with "H"); [done..|]. iIntros (f5) "%Hf5 H". sub. iEval (rewrite -(Nat.add_0_r (length l))) in "H1". iApply (cwp_copy (hold fr) with "H H1"); [done| | |].
    + intros j y f' Q Hj. simpl. apply (f_read fr _ h (l ++ [x])); [done|]. by apply lookup_app_l_Some.
    + intros y f' Q Hy. apply f_inc. apply (reaches_arr _ h (l ++ [x])); [done|]. apply elem_of_app. by left.
    + iIntros (f6) "%Hf6 H H1 H2". simpl. iMod (share_built with "H1 H2") as "H1"; [unfold len in *; rewrite app_length in Hl; simpl in *; lia|].
      done_with. iApply (finish o); [lia|split; [apply makes_some; simpl; split; [done|by destruct l]|]|].
      * intros ?? [= <- <-]. simpl. by rewrite map_app last_snoc.
      * simpl. rewrite last_snoc removelast_last !hold_cons. destruct x. iFrame.
  - iIntros (f2) "%Hf2". done_with. iApply (finish o); [lia|split; [apply makes_fail; lia|done]|done].
Qed.
Lemma spec_count a out f : hold (hold_arr a) ⊢ goal_of (Count a out) f.
Proof.
  iIntros "H". unfold run, constbuffer_array_get_buffer_count. destruct a as [[h l]|]; simpl. 2: { step. iApply (finish (Count None out)); [done|by destruct out|done]. }
  destruct out; simpl; [|step; by iApply (finish (Count (Some (h, l)) false))]. sub. sub. iApply (f_node [Arr h l] with "H"); [left|]. iIntros (n f1) "(%Hf1&%Hn&%Hl) H". done_with. rewrite Hn. by iApply (finish (Count (Some (h, l)) true)).
Qed.
Lemma spec_get a i f : allowed (Get a i) -> hold (hold_arr a) ⊢ goal_of (Get a i) f.
Proof.
  intros Hi. simpl in Hi. iIntros "H". unfold run, constbuffer_array_get_buffer. destruct a as [[h l]|]; simpl. 2: { step. by iApply (finish (Get None i)). }
  sub. sub. assert (Hin : Arr h l ∈ [Arr h l]) by left. iApply (f_node [Arr h l] with "H"); [done|]. iIntros (n f1) "(%Hf1&%Hn&%Hl) H". rewrite Hn. destruct (Z.geb_spec i (len l)) as [Hb|Hb].
  - done_with. iApply (finish (Get (Some (h, l)) i)); [done| |done]. simpl. rewrite lookup_ge_None_2 //. unfold len, is_u32 in *. lia.
  - destruct (lookup_lt_is_Some_2 l (Z.to_nat i)) as [x Hx]; [unfold len, is_u32 in *; lia|]. sub. iApply (f_read _ _ h l with "H"); [done..|]. iIntros (f2) "%Hf2 H". sub. iApply (f_inc with "H"); [apply (reaches_arr _ h l); [done|by eapply elem_of_list_lookup_2]|].
    iIntros (f3) "%Hf3 H H1". done_with. iApply (finish (Get (Some (h, l)) i)); [lia|simpl; by rewrite Hx|]. simpl. rewrite Hx. simpl. rewrite hold_cons. destruct x. iFrame.
Qed.
Lemma spec_content a i f : allowed (Content a i) -> hold (hold_arr a) ⊢ goal_of (Content a i) f.
Proof.
  intros Hi. simpl in Hi. iIntros "H". unfold run, constbuffer_array_get_buffer_content. destruct a as [[h l]|]; simpl. 2: { step. by iApply (finish (Content None i)). }
  sub. sub. assert (Hin : Arr h l ∈ [Arr h l]) by left. iApply (f_node [Arr h l] with "H"); [done|]. iIntros (n f1) "(%Hf1&%Hn&%Hl) H". rewrite Hn. destruct (Z.geb_spec i (len l)) as [Hb|Hb].
  - done_with. iApply (finish (Content (Some (h, l)) i)); [done| |done]. simpl. rewrite lookup_ge_None_2 //. unfold len, is_u32 in *. lia.
  - destruct (lookup_lt_is_Some_2 l (Z.to_nat i)) as [x Hx]; [unfold len, is_u32 in *; lia|]. sub. iApply (f_read _ _ h l with "H"); [done..|]. iIntros (f2) "%Hf2 H". sub. iApply (f_content with "H"); [apply (reaches_arr _ h l); [done|by eapply elem_of_list_lookup_2]|].
    iIntros (f3) "[%Hf3 _] H". done_with. iApply (finish (Content (Some (h, l)) i)); [lia|simpl; by rewrite Hx|done].
Qed.
Lemma spec_inc_arr a f : hold (hold_arr a) ⊢ goal_of (IncArr a) f.
Proof.
  iIntros "H". unfold run, constbuffer_array_inc_ref. destruct a as [[h l]|]; simpl; [|step; by iApply (finish (IncArr None))].
  sub. iApply (f_inc_arr [Arr h l] with "H"); [left|]. iIntros (f1) "%Hf1 H1 H2". iApply (finish (IncArr (Some (h, l)))); [done..|]. simpl. rewrite hold_cons. iFrame.
Qed.
Lemma spec_dec_arr a f : hold (hold_arr a) ⊢ goal_of (DecArr a) f.
Proof.
  iIntros "H". unfold run. destruct a as [[h l]|]; simpl; [|step; by iApply (finish (DecArr None))].
  rewrite hold_one. sub. iApply (cwp_dec_ref with "H"). iIntros (f1) "%Hf1". by iApply (finish (DecArr (Some (h, l)))).
Qed.

(** Walking along an array *)
Section walk.
Context (from : list held) (h : positive) (l : list buf) (Hin : Arr h l ∈ from).
Definition tail_of (i : nat) (xs : list buf) : Prop := forall j x, xs !! j = Some x -> l !! (i + j) = Some x.
Lemma tail_cons i x xs : tail_of i (x :: xs) -> l !! i = Some x /\ x ∈ l /\ tail_of (S i) xs.
Proof.
  intros H. pose proof (H 0 x eq_refl) as H0. rewrite Nat.add_0_r in H0. split; [done|]. split; [by eapply elem_of_list_lookup_2|]. intros j y Hj. rewrite Nat.add_succ_l -Nat.add_succ_r. by apply H.
Qed.
Lemma cwp_total_size (Q : option Z -> nat -> cP) xs : forall i t f, is_u32 t -> tail_of i xs ->
  hold from -∗ (∀ f', ⌈f <= f'⌉ -∗ hold from -∗ Q (if decide (t + total xs <= UINT32_MAX)%Z then Some (t + total xs)%Z else None) f') -∗ cwp CInv (total_size h i (length xs) t) f Q.
Proof.
  induction xs as [|x xs IH]; intros i t f Ht Hx; iIntros "H HQ"; cbn [total_size length].
  - done_with. unfold total. simpl. rewrite Z.add_0_r. destruct (decide _) as [_|Hn]; [|unfold is_u32 in Ht; lia]. by iApply "HQ".
  - destruct (tail_cons _ _ _ Hx) as (Hi&Hel&Hx'). sub. iApply (f_read _ _ h l with "H"); [done..|]. iIntros (f1) "%Hf1 H". sub. iApply (f_content with "H"); [by apply (reaches_arr _ h l)|]. iIntros (f2) "[%Hf2 %Hl] H". fold (len x.2).
    assert (Ep : total (x :: xs) = (len x.2 + total xs)%Z) by done. assert (Hp : (0 <= total xs)%Z). { clear. unfold total. induction xs; simpl; unfold len in *; lia. }
    assert (Hl0 : (0 <= len x.2)%Z) by (unfold len; lia). unfold is_u32 in Ht. rewrite Ep. destruct (decide (t + len x.2 <= UINT32_MAX)%Z) as [Hs|Hs].
    + rewrite u32_small; [|unfold is_u32; lia]. destruct (Z.ltb_spec (t + len x.2) t); [lia|]. iApply (IH with "H"); [unfold is_u32; lia|done|]. iIntros (f3) "%Hf3 H". rewrite Z.add_assoc. iApply ("HQ" with "[] H"). iPureIntro. lia.
    + rewrite u32_wrap; [|lia]. destruct (Z.ltb_spec (t + len x.2 - UINT32_MAX - 1) t) as [_|]; [|lia]. done_with. destruct (decide _) as [|_]; [lia|]. iApply ("HQ" with "[] H"). iPureIntro. lia.
Qed.
Lemma cwp_look (Q : list buf -> nat -> cP) xs : forall i f, tail_of i xs -> hold from -∗ (∀ f', ⌈f <= f'⌉ -∗ hold from -∗ Q xs f') -∗ cwp CInv (look h i (length xs)) f Q.
Proof.
  revert Q. induction xs as [|x xs IH]; intros Q i f Hx; iIntros "H HQ"; cbn [look length].
  - done_with. by iApply "HQ".
  - destruct (tail_cons _ _ _ Hx) as (Hi&Hel&Hx'). sub. iApply (f_read _ _ h l with "H"); [done..|]. iIntros (f1) "%Hf1 H". sub. iApply (f_content with "H"); [by apply (reaches_arr _ h l)|]. iIntros (f2) "[%Hf2 %Hl] H".
    sub. iApply (IH with "H"); [done|]. iIntros (f3) "%Hf3 H". done_with. destruct x. iApply ("HQ" with "[] H"). iPureIntro. lia.
Qed.
Notation full := (filter (fun x : buf => x.2 <> [])).
Lemma full_cons x xs : full (x :: xs) = if decide (0 < length x.2) then x :: full xs else full xs.
Proof. rewrite filter_cons. destruct x as [b [|]]; simpl; repeat case_decide; try done; lia. Qed.
Lemma cwp_count_non_empty (Q : Z -> nat -> cP) xs : forall i t f, (0 <= t)%Z -> (t + len xs <= UINT32_MAX)%Z -> tail_of i xs ->
  hold from -∗ (∀ f', ⌈f <= f'⌉ -∗ hold from -∗ Q (t + len (full xs))%Z f') -∗ cwp CInv (count_non_empty h i (length xs) t) f Q.
Proof.
  induction xs as [|x xs IH]; intros i t f Ht0 Ht Hx; iIntros "H HQ"; cbn [count_non_empty length].
  - done_with. unfold len. simpl. rewrite Z.add_0_r. by iApply "HQ".
  - destruct (tail_cons _ _ _ Hx) as (Hi&Hel&Hx'). sub. iApply (f_read _ _ h l with "H"); [done..|]. iIntros (f1) "%Hf1 H". sub. iApply (f_content with "H"); [by apply (reaches_arr _ h l)|]. iIntros (f2) "[%Hf2 %Hl] H".
    rewrite full_cons. assert (El : len (x :: xs) = (len xs + 1)%Z) by (unfold len; simpl; lia). assert (Hp : (0 <= len xs)%Z) by (unfold len; lia). destruct (decide _).
    + rewrite u32_small; [|unfold is_u32; lia]. iApply (IH with "H"); [lia..|done|]. iIntros (f3) "%Hf3 H". replace (t + 1 + len (full xs))%Z with (t + len (x :: full xs))%Z by (unfold len; simpl; lia). iApply ("HQ" with "[] H"). iPureIntro. lia.
    + iApply (IH with "H"); [lia..|done|]. iIntros (f3) "%Hf3 H". iApply ("HQ" with "[] H"). iPureIntro. lia.
Qed.
Lemma cwp_copy_non_empty (Q : unit -> nat -> cP) a n xs : forall ys k i d f, d = length ys -> tail_of i xs ->
  hold from -∗ building a n ys (length (full xs) + k) -∗ (∀ f', ⌈f <= f'⌉ -∗ hold from -∗ building a n (ys ++ full xs) k -∗ bufs (full xs) -∗ Q tt f') -∗ cwp CInv (copy_non_empty h a i d (length xs)) f Q.
Proof.
  induction xs as [|x xs IH]; intros ys k i d f Hd Hx; iIntros "H H1 HQ"; cbn [copy_non_empty length].
  - done_with. simpl. rewrite app_nil_r. iApply ("HQ" with "[//] H H1"). iApply bufs_nil.
  - destruct (tail_cons _ _ _ Hx) as (Hi&Hel&Hx'). sub. iApply (f_read _ _ h l with "H"); [done..|]. iIntros (f1) "%Hf1 H". sub. iApply (f_content with "H"); [by apply (reaches_arr _ h l)|]. iIntros (f2) "[%Hf2 %Hl] H".
    rewrite full_cons. destruct (decide _).
    + sub. cbn [length Nat.add]. iApply (cwp_append with "H1"); [done|]. iIntros (f3) "%Hf3 H1". sub. iApply (f_inc with "H"); [by apply (reaches_arr _ h l)|]. iIntros (f4) "%Hf4 H H2".
      iApply (IH (ys ++ [x]) with "H H1"); [rewrite app_length; simpl; lia|done|]. iIntros (f5) "%Hf5 H H1 H3". rewrite -app_assoc. iApply ("HQ" with "[] H H1 [H2 H3]"); [iPureIntro; lia|]. rewrite bufs_cons. iFrame.
    + iApply (IH with "H H1"); [done..|]. iIntros (f5) "%Hf5 H H1 H3". iApply ("HQ" with "[] H H1 H3"). iPureIntro. lia.
Qed.
End walk.
Lemma full_all (l : list buf) : length (filter (fun x : buf => x.2 <> []) l) = length l -> filter (fun x : buf => x.2 <> []) l = l.
Proof.
  induction l as [|x l IH]; [done|]. rewrite filter_cons. pose proof (filter_length (fun x : buf => x.2 <> []) l). destruct (decide _); simpl; intros Hl; [|lia]. rewrite IH //. lia.
Qed.
Lemma tail_all l : tail_of l 0 l.
Proof. by intros j x. Qed.
Lemma spec_size a out f : hold (hold_arr a) ⊢ goal_of (Size a out) f.
Proof.
  iIntros "H". unfold run, constbuffer_array_get_all_buffers_size. destruct a as [[h l]|]; simpl. 2: { step. by iApply (finish (Size None out)). }
  destruct out; simpl. 2: { step. iApply (finish (Size (Some (h, l)) false)); [done| |done]. done. }
  sub. sub. assert (Hin : Arr h l ∈ [Arr h l]) by left. iApply (f_node [Arr h l] with "H"); [done|]. iIntros (n f1) "(%Hf1&%Hn&%Hl) H". rewrite Hn len_nat. iApply (cwp_total_size _ h l with "H"); [done|by unfold is_u32|apply tail_all|].
  iIntros (f2) "%Hf2 H". iApply (finish (Size (Some (h, l)) true)); [lia| |done]. unfold answers. rewrite Z.add_0_l. destruct (decide (total l <= _)%Z) as [Hb|Hb]; [by rewrite decide_True|]. rewrite decide_False; [done|]. by intros [].
Qed.
Lemma spec_no_empty a f : hold (hold_arr a) ⊢ goal_of (NoEmpty a) f.
Proof.
  iIntros "H". unfold run, constbuffer_array_remove_empty_buffers. destruct a as [[h l]|]; simpl. 2: { step. iApply (finish (NoEmpty None)); [done|by apply makes_bad; intros []|done]. }
  set (o := NoEmpty (Some (h, l))). set (fr := [Arr h l]). assert (Hin : Arr h l ∈ fr) by left. set (xs := filter (fun x : buf => x.2 <> []) l).
  sub. sub. iApply (f_node fr with "H"); [done|]. iIntros (n f1) "(%Hf1&%Hn&%Hl) H". rewrite Hn len_nat. sub. iApply (cwp_count_non_empty fr h l with "H"); [done|lia|lia|apply tail_all|].
  iIntros (f2) "%Hf2 H". fold xs. rewrite Z.add_0_l. assert (Hle : length xs <= length l) by apply filter_length. destruct (decide _) as [He|He].
  { assert (Exs : xs = l). { apply full_all. unfold len in He. fold xs. lia. }
    sub. iApply (f_inc_arr fr with "H"); [done|]. iIntros (f3) "%Hf3 H1 H2". done_with. iApply (finish o); [lia|by apply makes_some|]. simpl. fold xs. rewrite Exs hold_cons. iFrame. }
  destruct (decide _) as [Hz|Hz].
  { apply is_zero in Hz. iApply cwp_empty. iIntros (r f3) "%Hf3 H1". iApply upd_intro. iApply (finish o); [lia| |].
    - split; [|intros Hc; by destruct Hc]. intros _. intros Hr. destruct Hf3 as [_ Hf3]. specialize (Hf3 Hr). lia.
    - simpl. fold xs. rewrite Hz hold_app. iFrame. }
  sub. iApply cwp_new_array. iSplit.
  - iIntros (a f3) "%Hf3 H1". rewrite len_nat. sub. iEval (rewrite -(Nat.add_0_r (length xs))) in "H1". iApply (cwp_copy_non_empty fr h l Hin with "H H1"); [done|apply tail_all|]. iIntros (f4) "%Hf4 H H1 H2". fold xs. simpl.
    iMod (share_built with "H1 H2") as "H1"; [unfold len in *; lia|]. done_with. iApply (finish o); [lia|by apply makes_some|]. simpl. fold xs. rewrite hold_cons. iFrame.
  - iIntros (f3) "%Hf3". done_with. iApply (finish o); [lia|apply makes_fail; lia|done].
Qed.
