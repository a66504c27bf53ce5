From Verif Require Base64Proofs.
From Verif Require Import Common Block BlockFacts CMem CMemFacts CStr CStrFacts StrModel StrSpec.
Local Open Scope cmonad_scope.

Definition str_ok (o : STRING) (l : list Z) (b : option block) : Prop :=
  string_ok l /\ exists p rest, s_ o = Some p /\ b = Some (str_block l rest).
Notation srep := (rep s_ str_ok).
Definition post (o : op) (s : st STRING) (a : strings) (r : res) (s' : st STRING) : Prop :=
  exists a', srep s' a' /\ (effect o a r a' \/ (fails s < fails s' /\ failure o = Some r /\ a' = a)).

Ltac simp_st := cbn [mem objs oracle fails].
Ltac fin_fail := eexists; split; [apply rep_oracle; eassumption|]; first [right; simp_st; split_and!; (lia || done) | left; done ].

Lemma string_ok_zfree l : string_ok l -> zfree l.
Proof. intros [H _]. eapply Forall_impl; [exact H|]. simpl. lia. Qed.
Lemma string_ok_nil : string_ok [].
Proof. by split; [constructor|]. Qed.
Lemma string_ok_app l1 l2 : string_ok l1 -> string_ok l2 -> fits (length (l1 ++ l2)) -> string_ok (l1 ++ l2).
Proof. intros [H1 _] [H2 _] Hf. split; [by apply Forall_app|done]. Qed.
Lemma string_ok_take l n : string_ok l -> string_ok (take n l).
Proof. intros [H1 H2]. split; [by apply Forall_take|]. unfold fits in *. rewrite take_length. lia. Qed.
Lemma string_ok_quoted l : string_ok l -> fits (length ([34%Z] ++ l ++ [34%Z])) -> string_ok ([34%Z] ++ l ++ [34%Z]).
Proof. intros [H1 H2] Hf. split; [|done]. apply Forall_app. split; [by repeat constructor|]. apply Forall_app. split; [done|]. by repeat constructor. Qed.

Lemma get_str s a h l : srep s a -> a !! h = Some l ->
  exists p rest, objs s !! h = Some (Str (Some p)) /\ mem s !! p = Some (str_block l rest) /\ string_ok l.
Proof.
  intros R H. destruct (rep_get _ _ _ _ _ _ R H) as ([q]&Ho&[(Hl&p&rest&Hp&Hb) _]). simpl in *. subst. simpl in Hb. eauto.
Qed.
Lemma owned_of (s : st STRING) h p : objs s !! h = Some (Str p) -> owned s_ s h p.
Proof. intros H. unfold owned. by rewrite H. Qed.
Lemma owned_new (s : st STRING) h : objs s !! h = None -> owned s_ s h None.
Proof. intros H. unfold owned. by rewrite H. Qed.
Lemma st_eta {O} (s : st O) : St (mem s) (objs s) (oracle s) (fails s) = s.
Proof. by destruct s. Qed.
Lemma fresh_not_in s a (h : positive) : srep s a -> objs s !! h = None -> a !! h = None.
Proof. intros R H. by apply (rep_not_obj _ _ _ _ _ R). Qed.
Lemma str_ok_intro p l rest : string_ok l -> str_ok (Str (Some p)) l (Some (str_block l rest)).
Proof. split; [done|]. by eexists _, _. Qed.

(** Text arguments. *)
Definition arg_ok (s : st STRING) (a : strings) (t : text) (c : option csrc) : Prop :=
  match denotes a t with
  | None => c = None
  | Some l => exists c', c = Some c' /\ src_is s c' l /\ string_ok l /\ (forall p, c' = CPtr p -> exists h, t = TOf h /\ objs s !! h = Some (Str (Some p)))
  end.
Lemma wp_eval t s a (Q : option csrc -> st STRING -> Prop) : srep s a -> text_ok a t -> (forall c, arg_ok s a t c -> Q c s) -> wp (eval t) s Q.
Proof.
  intros R Ht HQ. destruct t as [|l|h]; simpl.
  - apply wp_ret, HQ. done.
  - apply wp_ret, HQ. exists (CExt (l ++ [0%Z])). split; [done|]. split; [|split; [done|]]; [|done].
    split; [by apply string_ok_zfree|]. by exists [].
  - destruct Ht as [l Hl]. destruct (get_str _ _ _ _ R Hl) as (p&rest&Ho&Hm&Hok). apply wp_bind, wp_bind. eapply wp_get_obj; [done|].
    do 2 apply wp_ret. apply HQ. unfold arg_ok. cbn [denotes]. rewrite Hl. exists (CPtr p). split; [done|].
    split; [split; [by apply string_ok_zfree|by exists rest]|]. split; [done|]. intros p' [= <-]. by exists h.
Qed.

(** Writing into a block. *)
Lemma wp_store_at {O} d w x r v off (s : st O) (Q : unit -> st O -> Prop) :
  mem s !! d = Some (w ++ x ++ r) -> off = length w -> length x = length v ->
  Q tt (St (<[d := w ++ v ++ r]> (mem s)) (objs s) (oracle s) (fails s)) -> wp (store (Some d) off v) s Q.
Proof.
  intros Hd -> Hx HQ. eapply wp_store; [done|rewrite !app_length; lia|].
  rewrite take_app_alt by done. rewrite drop_app_ge by lia. replace (length w + length v - length w) with (length v) by lia.
  by rewrite drop_app_alt.
Qed.
Lemma wp_strcpy_at {O} d w x r c l n off (s : st O) (Q : unit -> st O -> Prop) :
  mem s !! d = Some (w ++ x ++ r) -> off = length w -> length x = n -> src_is s c l -> c <> CPtr d -> n <= length l + 1 ->
  Q tt (St (<[d := w ++ bytes_block (take n (l ++ [0%Z])) ++ r]> (mem s)) (objs s) (oracle s) (fails s)) -> wp (strcpy_n (Some d) off c 0 n) s Q.
Proof.
  intros Hd -> Hx Hc Hne Hn HQ. eapply wp_strcpy_n; [done..|rewrite !app_length; lia|].
  rewrite take_app_alt by done. rewrite drop_app_ge by lia. replace (length w + n - length w) with n by lia.
  by rewrite drop_app_alt.
Qed.
Lemma fresh_app n m : fresh_block (n + m) = fresh_block n ++ fresh_block m.
Proof. apply replicate_add. Qed.
Lemma fresh_length n : length (fresh_block n) = n.
Proof. apply replicate_length. Qed.
Lemma str_block_app l1 l2 rest : bytes_block l1 ++ bytes_block (l2 ++ [0%Z]) ++ rest = str_block (l1 ++ l2) rest.
Proof. rewrite str_block_eq, <-app_assoc, !bytes_block_app, <-!app_assoc. done. Qed.
Lemma bb_length l : length (bytes_block l) = length l.
Proof. apply fmap_length. Qed.

(** Constructors. *)
Lemma wp_construct_with alloc n fill l s a (Q : ptr -> st STRING -> Prop) :
  srep s a -> string_ok l ->
  alloc = malloc n ->
  (forall h p orc, objs s !! h = None -> mem s !! p = None ->
     wp (fill (Some p)) (St (<[p := fresh_block n]> (mem s)) (<[h := Str (Some p)]> (objs s)) orc (fails s))
        (fun _ s2 => exists rest orc, s2 = St (<[p := str_block l rest]> (mem s)) (<[h := Str (Some p)]> (objs s)) orc (fails s))) ->
  (forall h s', a !! h = None -> srep s' (<[h := l]> a) -> Q (Some h) s') ->
  (forall s', srep s' a -> fails s < fails s' -> Q None s') ->
  wp (construct_with alloc fill) s Q.
Proof.
  intros R Hl -> Hfill Hok Hno. apply wp_bind, wp_new_obj; [intros h o Hh|intros o; apply wp_ret, Hno; [by apply rep_oracle|simp_st; lia]].
  apply wp_bind, wp_malloc; [intros p o' Hp|intros o']; simp_st; apply wp_bind; (eapply wp_set_obj; [simp_st; by rewrite lookup_insert|]); simp_st; rewrite insert_insert.
  - cbn [mem objs] in Hp. apply wp_bind. eapply wp_mono; [by apply Hfill|]. intros [] s2 (rest&orc&->). apply wp_ret. apply Hok; [by eapply fresh_not_in|].
    apply (rep_replace _ _ s a h None); try done; [by apply owned_new|by apply str_ok_intro].
  - apply wp_bind. eapply wp_free_obj; [simp_st; by rewrite lookup_insert|]. apply wp_ret. simp_st. rewrite delete_insert by done.
    apply Hno; [by apply rep_oracle|simp_st; lia].
Qed.
(** ... when the size overflows *)
Lemma wp_construct_with_none fill s a (Q : ptr -> st STRING -> Prop) :
  srep s a ->
  (forall s', srep s' a -> fails s <= fails s' -> Q None s') ->
  wp (construct_with (ret None) fill) s Q.
Proof.
  intros R Hno. apply wp_bind, wp_new_obj; [intros h o Hh|intros o; apply wp_ret, Hno; [by apply rep_oracle|simp_st; lia]].
  apply wp_bind, wp_ret, wp_bind. eapply wp_set_obj; [simp_st; by rewrite lookup_insert|]. simp_st. apply wp_bind.
  eapply wp_free_obj; [simp_st; by rewrite lookup_insert|]. apply wp_ret. simp_st. rewrite insert_insert, delete_insert by done.
  apply Hno; [by apply rep_oracle|simp_st; lia].
Qed.
Lemma mflex b n : @malloc_flex STRING b n 1 = if decide (Z.of_nat (b + n) <= UINT64_MAX)%Z then malloc (b + n) else ret None.
Proof. unfold malloc_flex. rewrite flex_1. unfold size_max. by case_decide. Qed.
Lemma rflex p b n : @realloc_flex STRING p b n 1 = if decide (Z.of_nat (b + n) <= UINT64_MAX)%Z then realloc p (b + n) else ret None.
Proof. unfold realloc_flex. rewrite flex_1. unfold size_max. by case_decide. Qed.

Ltac created := intros ? ? ? ?; apply wp_ret; eexists; split; [eassumption|left; eexists; done].
Ltac nofail := intros ? ? ?; apply wp_ret; eexists; split; [eassumption|right; done].

Lemma wp_STRING_new s a (Q : ptr -> st STRING -> Prop) : srep s a ->
  (forall h s', a !! h = None -> srep s' (<[h := []]> a) -> Q (Some h) s') ->
  (forall s', srep s' a -> fails s < fails s' -> Q None s') -> wp STRING_new s Q.
Proof.
  intros R H1 H2. change STRING_new with (construct_with (malloc 1) (fun p => set_char p 0 0)).
  eapply wp_construct_with; [done|apply string_ok_nil|done| |done|done].
  intros h p orc _ _. eapply (wp_set_char _ [] None []); [simp_st; by rewrite lookup_insert|done|]. simp_st. rewrite insert_insert. by exists [], orc.
Qed.
Lemma run_new s a : srep s a -> wp (run New) s (post New s a).
Proof. intros R. apply wp_bind. eapply wp_STRING_new; [done|created|nofail]. Qed.

Lemma fill_copy s c l h p orc : src_is s c l -> mem s !! p = None ->
  wp (strcpy_n (Some p) 0 c 0 (length l + 1)) (St (<[p := fresh_block (1 + length l)]> (mem s)) (<[h := Str (Some p)]> (objs s)) orc (fails s))
    (fun _ s2 => exists rest orc, s2 = St (<[p := str_block l rest]> (mem s)) (<[h := Str (Some p)]> (objs s)) orc (fails s)).
Proof.
  intros Hc Hp. assert (c <> CPtr p) as Hne.
  { intros ->. destruct Hc as (_&rest&Hc). congruence. }
  eapply (wp_strcpy_at _ [] (fresh_block (1 + length l)) [] _ l); [simp_st; rewrite lookup_insert; simpl; by rewrite app_nil_r|done|rewrite fresh_length; lia| |done|done|].
  - eapply src_frame; [done|]. intros q ->. simp_st. rewrite lookup_insert_ne by congruence. done.
  - simp_st. rewrite insert_insert. exists [], orc. do 2 f_equal. rewrite str_block_eq. rewrite take_ge by (rewrite app_length; simpl; lia). done.
Qed.

Lemma run_clone h s a : srep s a -> live a h -> wp (run (Clone h)) s (post (Clone h) s a).
Proof.
  intros R Hl. simpl. unfold STRING_clone. apply wp_bind. destruct h as [h|]; [|do 2 apply wp_ret; exists a; split; [done|by left]].
  destruct Hl as [l Hl]. destruct (get_str _ _ _ _ R Hl) as (q&rest&Ho&Hm&Hok).
  apply wp_bind, wp_new_obj; [intros h' o Hh|intros o; do 2 apply wp_ret; fin_fail]. apply wp_bind.
  assert (h' <> h) by congruence.
  eapply wp_get_obj; [simp_st; by rewrite lookup_insert_ne|]. cbn [s_ own]. apply wp_bind, wp_ret, wp_bind.
  assert (src_is s (CPtr q) l) as Hsrc by (split; [by apply string_ok_zfree|by exists rest]).
  eapply wp_strlen; [eapply src_frame; [exact Hsrc|done]|]. rewrite mflex. destruct Hok as [Hok Hf].
  rewrite decide_True by (unfold fits in Hf; lia).
  apply wp_bind, wp_malloc; [intros p o' Hp|intros o']; simp_st; apply wp_bind; (eapply wp_set_obj; [simp_st; by rewrite lookup_insert|]); simp_st; rewrite insert_insert.
  - cbn [mem objs] in Hp. apply wp_bind. eapply wp_mono; [by apply fill_copy|]. intros [] s2 (rest'&orc&->). do 2 apply wp_ret.
    exists (<[h' := l]> a). split; [|left; exists l; split; [done|]; exists h'; split; [by eapply fresh_not_in|done]].
    apply (rep_replace _ _ s a h' None); try done; [by apply owned_new|by apply str_ok_intro].
  - apply wp_bind. eapply wp_free_obj; [simp_st; by rewrite lookup_insert|]. do 2 apply wp_ret. simp_st. rewrite delete_insert by done. fin_fail.
Qed.

Lemma arg_null s a t : arg_ok s a t None -> denotes a t = None.
Proof. unfold arg_ok. destruct (denotes a t); [|done]. by intros (?&?&_). Qed.
Lemma arg_some s a t c : arg_ok s a t (Some c) -> exists l, denotes a t = Some l /\ src_is s c l /\ string_ok l /\ (forall p, c = CPtr p -> exists h, t = TOf h /\ objs s !! h = Some (Str (Some p))).
Proof. unfold arg_ok. destruct (denotes a t) as [l|]; [|done]. intros (?&[= <-]&?). by exists l. Qed.

Lemma post_failed o s a r s' : srep s' a -> fails s < fails s' -> failure o = Some r -> post o s a r s'.
Proof. intros. exists a. split; [done|]. by right. Qed.
Lemma post_effect o s a r a' s' : srep s' a' -> effect o a r a' -> post o s a r s'.
Proof. intros. exists a'. split; [done|]. by left. Qed.
Ltac null_arg := do 2 apply wp_ret; (eapply post_effect; [eassumption|]).

Lemma run_construct t s a : srep s a -> text_ok a t -> wp (run (Construct t)) s (post (Construct t) s a).
Proof.
  intros R Ht. simpl. apply wp_bind. eapply wp_eval; [done..|]. intros [c|] Hc; apply wp_bind; simpl.
  2:{ null_arg. simpl. by rewrite (arg_null _ _ _ Hc). }
  destruct (arg_some _ _ _ _ Hc) as (l&Hd&Hs&Hok&_). apply wp_bind. eapply wp_strlen; [done|]. rewrite mflex.
  destruct Hok as [Hok Hf]. rewrite decide_True by (unfold fits in Hf; lia).
  eapply wp_construct_with; [done|by split|done|intros; by apply fill_copy| |].
  - intros h s' Hh R'. apply wp_ret. eapply post_effect; [done|]. simpl. rewrite Hd, decide_True by done. by exists h.
  - intros s' R' Hfl. apply wp_ret. by apply post_failed.
Qed.
Lemma run_construct_sprintf f s a : srep s a -> fmt_ok f -> wp (run (ConstructSprintf f)) s (post (ConstructSprintf f) s a).
Proof.
  intros R Hf. simpl. apply wp_bind. destruct f as [[|[|c t] sec]|]; unfold STRING_construct_sprintf.
  - null_arg. done.
  - eapply wp_STRING_new; [done| |]; intros; apply wp_ret; [eapply post_effect; [done|]; simpl; eexists; done|by apply post_failed].
  - set (l := c :: t) in *. apply wp_bind, wp_new_obj; [intros h o Hh|intros o; do 2 apply wp_ret; fin_fail].
    apply wp_bind, wp_malloc; [intros p o' Hp|intros o']; simp_st; apply wp_bind; (eapply wp_set_obj; [simp_st; by rewrite lookup_insert|]); simp_st; rewrite insert_insert.
    + cbn [mem objs] in Hp. apply wp_bind. destruct sec as [junk|]; apply wp_bind.
      * eapply wp_store; [simp_st; by rewrite lookup_insert|rewrite take_length, fresh_length; lia|]. simp_st. rewrite insert_insert. apply wp_ret.
        apply wp_bind. eapply wp_free; [simp_st; by rewrite lookup_insert|]. simp_st. rewrite delete_insert by done. apply wp_bind.
        eapply wp_free_obj; [simp_st; by rewrite lookup_insert|]. simp_st. rewrite delete_insert by done. do 2 apply wp_ret. eapply post_effect; [by apply rep_oracle|done].
      * eapply (wp_store_at _ [] (fresh_block (length l + 1)) []); [simp_st; rewrite lookup_insert; simpl; by rewrite app_nil_r|done|by rewrite fresh_length, bb_length, app_length|].
        simp_st. rewrite insert_insert. do 3 apply wp_ret. eapply (post_effect _ _ _ _ (<[h := l]> a)); [|simpl; exists h; split; [by eapply fresh_not_in|done]].
        apply (rep_replace _ _ s a h None); try done; [by apply owned_new|]. rewrite app_nil_l, app_nil_r. pose proof (str_block_eq l []) as E. rewrite app_nil_r in E. rewrite <-E. by apply str_ok_intro.
    + apply wp_bind. eapply wp_free_obj; [simp_st; by rewrite lookup_insert|]. do 2 apply wp_ret. simp_st. rewrite delete_insert by done. fin_fail.
  - null_arg. done.
Qed.
Lemma run_new_with_memory l s a : srep s a -> string_ok l -> wp (run (NewWithMemory l)) s (post (NewWithMemory l) s a).
Proof.
  intros R Hl. simpl. apply wp_bind, wp_malloc; [intros p o Hp|intros o; apply wp_ret; fin_fail]. apply wp_bind.
  eapply (wp_store_at _ [] (fresh_block (length l + 1)) []); [simp_st; rewrite lookup_insert; simpl; by rewrite app_nil_r|done|by rewrite fresh_length, bb_length, app_length|].
  simp_st. rewrite insert_insert, app_nil_l, app_nil_r. unfold STRING_new_with_memory. apply wp_bind, wp_bind, wp_new_obj; [intros h o' Hh|intros o']; simp_st.
  - cbn [mem objs] in Hh. apply wp_bind. eapply wp_set_obj; [simp_st; by rewrite lookup_insert|]. simp_st. rewrite insert_insert. do 2 apply wp_ret.
    eapply (post_effect _ _ _ _ (<[h := l]> a)); [|simpl; exists h; split; [by eapply fresh_not_in|done]].
    apply (rep_replace _ _ s a h None); try done; [by apply owned_new|]. pose proof (str_block_eq l []) as E. rewrite app_nil_r in E. rewrite <-E. by apply str_ok_intro.
  - apply wp_ret, wp_bind. eapply wp_free; [simp_st; by rewrite lookup_insert|]. simp_st. rewrite delete_insert by done. apply wp_ret. fin_fail.
Qed.
Lemma run_new_quoted t s a : srep s a -> text_ok a t -> wp (run (NewQuoted t)) s (post (NewQuoted t) s a).
Proof.
  intros R Ht. simpl. apply wp_bind. eapply wp_eval; [done..|]. intros [c|] Hc; apply wp_bind; simpl.
  2:{ null_arg. simpl. by rewrite (arg_null _ _ _ Hc). }
  destruct (arg_some _ _ _ _ Hc) as (l&Hd&Hs&Hok&_). apply wp_bind. eapply wp_strlen; [done|]. rewrite mflex.
  assert (E : fits (length ([34%Z] ++ l ++ [34%Z])) <-> (Z.of_nat (3 + length l) <= UINT64_MAX)%Z).
  { unfold fits. rewrite !app_length. simpl. lia. }
  case_decide as Hf.
  - eapply (wp_construct_with _ (3 + length l) _ ([34%Z] ++ l ++ [34%Z])); [done|by apply string_ok_quoted, E|done| | |].
    + intros h p orc Hh Hp. assert (c <> CPtr p) as Hne. { intros ->. destruct Hs as (_&rest&Hs). congruence. }
      apply wp_bind. replace (3 + length l) with (1 + (length l + (1 + 1))) by lia. rewrite !fresh_app.
      eapply (wp_set_char _ [] None); [simp_st; by rewrite lookup_insert|done|]. simp_st. rewrite insert_insert, app_nil_l. apply wp_bind.
      eapply (wp_strcpy_at _ [Some 34%Z] (fresh_block (length l)) (fresh_block 1 ++ fresh_block 1) _ l); [simp_st; by rewrite lookup_insert|done|by rewrite fresh_length| |done|lia|].
      { eapply src_frame; [done|]. intros q ->. simp_st. rewrite lookup_insert_ne by congruence. done. }
      simp_st. rewrite insert_insert. apply wp_bind. rewrite take_app_le, take_ge by lia.
      eapply (wp_set_char _ (Some 34%Z :: bytes_block l) None (fresh_block 1)); [simp_st; by rewrite lookup_insert|simpl; rewrite bb_length; lia|].
      simp_st. rewrite insert_insert. eapply (wp_set_char _ (Some 34%Z :: bytes_block l ++ [Some 34%Z]) None []); [simp_st; rewrite lookup_insert; simpl; by rewrite <-app_assoc|simpl; rewrite app_length, bb_length; simpl; lia|].
      simp_st. rewrite insert_insert. exists [], orc. do 2 f_equal. unfold str_block. rewrite !bytes_block_app. done.
    + intros h s' Hh R'. apply wp_ret. eapply post_effect; [done|]. cbn [effect]. rewrite Hd, decide_True by by apply E. by exists h.
    + intros s' R' Hfl. apply wp_ret. by apply post_failed.
  - eapply wp_construct_with_none; [done|]. intros s' R' _. apply wp_ret. eapply post_effect; [done|]. cbn [effect]. rewrite Hd, decide_False by (by rewrite E). done.
Qed.

(** STRING_new_JSON *)
Lemma json_hex c : (0 <= c < 32)%Z ->
  hexToASCII !! Z.to_nat (Z.shiftr (Z.land c 240) 4) = Some (nth (Z.to_nat (c / 16)) HEX 0%Z) /\ hexToASCII !! Z.to_nat (Z.land c 15) = Some (nth (Z.to_nat (c mod 16)) HEX 0%Z).
Proof.
  intros H. eapply bool_decide_eq_true_1.
  refine (Base64Proofs.range_forall 32 (fun c => bool_decide (hexToASCII !! Z.to_nat (Z.shiftr (Z.land c 240) 4) = Some (nth (Z.to_nat (c / 16)) HEX 0%Z) /\ hexToASCII !! Z.to_nat (Z.land c 15) = Some (nth (Z.to_nat (c mod 16)) HEX 0%Z))) _ c _); [vm_compute; reflexivity|lia].
Qed.
Lemma at_hex {S} l i v (s : S) (Q : Z -> S -> Prop) : l !! i = Some v -> Q v s -> wp (at_ l i) s Q.
Proof. intros H HQ. unfold wp, at_. by rewrite H. Qed.
Lemma json_count_ok s c pre suf nc ne (Q : option (nat * nat) -> st STRING -> Prop) :
  src_is s c (pre ++ suf) -> Forall (fun c => 0 < c)%Z suf ->
  (if decide (Exists (fun c => 128 <= c)%Z suf) then Q None s
   else forall k1 k2, length (concat (json_char <$> suf)) = length suf + 5 * k1 + k2 -> Q (Some (nc + k1, ne + k2)) s) ->
  wp (json_count c (length pre) (length suf) nc ne) s Q.
Proof.
  revert pre nc ne. induction suf as [|x suf IH]; intros pre nc ne Hs Hpos HQ; cbn [length json_count].
  - apply wp_ret. rewrite decide_False in HQ by (intros HE; inversion HE). specialize (HQ 0 0 eq_refl). by rewrite !Nat.add_0_r in HQ.
  - apply Forall_cons in Hpos as [Hx Hpos].
    apply wp_bind. eapply wp_char_at; [done|by apply list_lookup_middle|].
    destruct (decide (128 <= x)%Z) as [H128|H128].
    { apply wp_ret. rewrite decide_True in HQ by (by left). done. }
    assert (pre ++ x :: suf = (pre ++ [x]) ++ suf) as E by (by rewrite <-app_assoc).
    replace (S (length pre)) with (length (pre ++ [x])) by (rewrite app_length; simpl; lia). rewrite E in Hs.
    assert (Hrec : forall nc' ne' d, nc' = (if decide (x <= 31)%Z then S nc else nc) ->
      ne' = (if decide (x <= 31)%Z then ne else if decide (x = 34 \/ x = 92 \/ x = 47)%Z then S ne else ne) ->
      length (json_char x) = 1 + d -> d = 5 * (nc' - nc) + (ne' - ne) ->
      wp (json_count c (length (pre ++ [x])) (length suf) nc' ne') s Q).
    { intros nc' ne' d Hnc Hne Hd Hd'. apply IH; [done..|]. destruct (decide (Exists (fun c => 128 <= c)%Z suf)) as [HE|HE].
      - rewrite decide_True in HQ by (apply Exists_cons; by right). done.
      - intros k1 k2 Hk. rewrite decide_False in HQ by (rewrite Exists_cons; tauto).
        assert (nc <= nc' /\ ne <= ne') as [? ?] by (subst; repeat case_decide; lia).
        replace (nc' + k1) with (nc + (nc' - nc + k1)) by lia. replace (ne' + k2) with (ne + (ne' - ne + k2)) by lia. apply HQ.
        rewrite fmap_cons. cbn [concat length]. rewrite app_length, Hk. lia. }
    unfold json_char in Hrec. destruct (decide (x <= 31)%Z).
    { eapply Hrec; [done|done|rewrite decide_True by lia; cbn [length]; reflexivity|lia]. }
    rewrite (decide_False (P := (x < 32)%Z)) in Hrec by lia. destruct (decide (x = 34 \/ x = 92 \/ x = 47)%Z).
    { eapply Hrec; [done|done|rewrite decide_True by (rewrite !elem_of_cons; tauto); cbn [length]; reflexivity|lia]. }
    eapply Hrec; [done|done|rewrite decide_False by (rewrite !elem_of_cons, elem_of_nil; tauto); cbn [length]; reflexivity|lia].
Qed.
Lemma put_chars_ok {m0 os orc f} d w vs k (Q : nat -> st STRING -> Prop) :
  Q (length (w ++ vs)) (St (<[d := bytes_block (w ++ vs) ++ fresh_block k]> m0) os orc f) ->
  wp (put_chars (Some d) (length w) vs) (St (<[d := bytes_block w ++ fresh_block (length vs + k)]> m0) os orc f) Q.
Proof.
  revert w. induction vs as [|v vs IH]; intros w HQ; cbn [put_chars].
  - apply wp_ret. by rewrite app_nil_r in HQ.
  - apply wp_bind. eapply (wp_set_char _ (bytes_block w) None (fresh_block (length vs + k))); [simp_st; by rewrite lookup_insert|by rewrite bb_length|].
    simp_st. rewrite insert_insert. replace (S (length w)) with (length (w ++ [v])) by (rewrite app_length; simpl; lia).
    assert (bytes_block w ++ Some v :: fresh_block (length vs + k) = bytes_block (w ++ [v]) ++ fresh_block (length vs + k)) as ->.
    { rewrite bytes_block_app, <-app_assoc. done. }
    apply IH. by rewrite <-app_assoc.
Qed.
Lemma json_write_ok {m0 os orc f} c d pre suf w k (Q : nat -> st STRING -> Prop) :
  src_is (St m0 os orc f) c (pre ++ suf) -> c <> CPtr d -> Forall (fun c => 0 < c)%Z suf ->
  Q (length (w ++ concat (json_char <$> suf))) (St (<[d := bytes_block (w ++ concat (json_char <$> suf)) ++ fresh_block k]> m0) os orc f) ->
  wp (json_write c (Some d) (length pre) (length suf) (length w)) (St (<[d := bytes_block w ++ fresh_block (length (concat (json_char <$> suf)) + k)]> m0) os orc f) Q.
Proof.
  revert pre w. induction suf as [|x suf IH]; intros pre w Hs Hne Hpos HQ; cbn [length json_write].
  - apply wp_ret. cbn [fmap list_fmap concat] in *. by rewrite app_nil_r in HQ.
  - apply Forall_cons in Hpos as [Hx Hpos]. apply wp_bind.
    eapply wp_char_at; [eapply src_frame; [exact Hs|intros q ->; simp_st; rewrite lookup_insert_ne by congruence; done]|by apply list_lookup_middle|].
    rewrite fmap_cons. cbn [concat]. rewrite app_length, <-Nat.add_assoc.
    assert (Hput : forall vs, vs = json_char x -> wp (put_chars (Some d) (length w) vs)
      (St (<[d := bytes_block w ++ fresh_block (length (json_char x) + (length (concat (json_char <$> suf)) + k))]> m0) os orc f)
      (fun pos s' => wp (json_write c (Some d) (S (length pre)) (length suf) pos) s' Q)).
    { intros vs ->. apply put_chars_ok. replace (S (length pre)) with (length (pre ++ [x])) by (rewrite app_length; simpl; lia).
      apply IH; [by rewrite <-app_assoc|done|done|]. rewrite fmap_cons in HQ. cbn [concat] in HQ. by rewrite <-!app_assoc. }
    unfold json_char in Hput at 1. apply wp_bind. destruct (decide (x <= 31)%Z).
    { destruct (json_hex x) as [H1 H2]; [lia|]. apply wp_bind. eapply at_hex; [done|]. apply wp_bind. eapply at_hex; [done|].
      rewrite decide_True in Hput by lia. by apply Hput. }
    rewrite decide_False in Hput by lia.
    destruct (decide (x = 34)%Z) as [->|]; [apply Hput; by rewrite decide_True by (rewrite !elem_of_cons; tauto)|].
    destruct (decide (x = 92)%Z) as [->|]; [apply Hput; by rewrite decide_True by (rewrite !elem_of_cons; tauto)|].
    destruct (decide (x = 47)%Z) as [->|]; [apply Hput; by rewrite decide_True by (rewrite !elem_of_cons; tauto)|].
    apply Hput. by rewrite decide_False by (rewrite !elem_of_cons, elem_of_nil; tauto).
Qed.
Lemma json_chars l : Forall (fun c => 0 < c <= 255)%Z l -> ~ Exists (fun c => 128 <= c)%Z l -> Forall (fun c => 0 < c <= 255)%Z (json l).
Proof.
  intros H N. apply Forall_Exists_neg in N. apply Forall_app. split; [by repeat constructor|]. apply Forall_app. split; [|by repeat constructor].
  induction l as [|x l IH]; [constructor|]. apply Forall_cons in H as [Hx H]. apply Forall_cons in N as [Nx N].
  rewrite fmap_cons. cbn [concat]. apply Forall_app. split; [|by apply IH].
  assert (forall i, i < 16 -> (0 < nth i HEX 0 <= 255)%Z) as Hhex.
  { intros i Hi. do 16 (destruct i; [simpl; lia|]). lia. }
  unfold json_char. case_decide; [|case_decide]; repeat constructor; try lia.
  - apply Hhex. pose proof (Z.div_pos x 16). pose proof (Z.div_lt_upper_bound x 16 16). lia.
  - apply Hhex. pose proof (Z.div_pos x 16). pose proof (Z.div_lt_upper_bound x 16 16). lia.
  - apply Hhex. pose proof (Z.mod_pos_bound x 16). lia.
  - apply Hhex. pose proof (Z.mod_pos_bound x 16). lia.
Qed.
Lemma json_length l : length (json l) = 2 + length (concat (json_char <$> l)).
Proof. unfold json. rewrite !app_length. simpl. lia. Qed.
Lemma run_new_json t s a : srep s a -> text_ok a t -> wp (run (NewJSON t)) s (post (NewJSON t) s a).
Proof.
  intros R Ht. cbn [run]. apply wp_bind. eapply wp_eval; [done..|]. intros [c|] Hc; apply wp_bind; cbn [STRING_new_JSON].
  2:{ null_arg. simpl. by rewrite (arg_null _ _ _ Hc). }
  destruct (arg_some _ _ _ _ Hc) as (l&Hd&Hs&[Hok Hlf]&_). apply wp_bind. eapply wp_strlen; [done|]. apply wp_bind.
  assert (Hpos : Forall (fun c => 0 < c)%Z l) by (eapply Forall_impl; [exact Hok|]; simpl; lia).
  eapply (json_count_ok s c [] l 0 0); [done|done|]. destruct (decide (Exists (fun c => 128 <= c)%Z l)) as [HE|HE].
  { null_arg. cbn [effect]. rewrite Hd, decide_True by done. done. }
  intros k1 k2 Hk. cbn [Nat.add]. 
  assert (HN : forall s', srep s' a -> (fails s < fails s' \/ ~ fits (length (json l))) -> post (NewJSON t) s a (RHandle None) s').
  { intros s' R' [Hf|Hf]; [by apply post_failed|]. eapply post_effect; [done|]. cbn [effect]. rewrite Hd, decide_False, decide_False by done. done. }
  assert (HF : fits (length (json l)) <-> (Z.of_nat (length l) + 5 * Z.of_nat k1 + Z.of_nat k2 + 3 <= UINT64_MAX)%Z).
  { unfold fits. rewrite json_length. lia. }
  apply wp_bind, wp_new_obj; [intros h o Hh|intros o; do 2 apply wp_ret; fin_fail].
  assert (Hfree : forall o f, (fails s < f \/ ~ fits (length (json l))) -> wp (free_obj h ;;; ret None) (St (mem s) (<[h := Str None]> (objs s)) o f) (fun r s' => wp (ret (RHandle r)) s' (post (NewJSON t) s a))).
  { intros o' f Hf. apply wp_bind. eapply wp_free_obj; [simp_st; by rewrite lookup_insert|]. do 2 apply wp_ret. simp_st. rewrite delete_insert by done.
    apply HN; [by apply rep_oracle|done]. }
  destruct (decide _) as [H1|H1]; [apply Hfree; right; rewrite HF; unfold size_max in *; lia|].
  destruct (decide _) as [H2|H2]; [apply Hfree; right; rewrite HF; unfold size_max in *; lia|].
  destruct (decide _) as [H3|H3].
  { apply Hfree; right; rewrite HF; unfold size_max in *. intros H. apply Z.lt_nge in H3. apply H3. apply Z.div_le_lower_bound; lia. }
  assert (fits (length (json l))) as Hfits.
  { apply HF. apply Z.nlt_ge in H3. apply (Z.mul_le_mono_nonneg_l _ _ 5) in H3; [|lia].
    pose proof (Z.mul_div_le (size_max - (Z.of_nat (length l) + 3 + Z.of_nat k2)) 5). unfold size_max in *. lia. }
  apply wp_bind, wp_malloc; [intros p o' Hp|intros o']; simp_st; apply wp_bind; (eapply wp_set_obj; [simp_st; by rewrite lookup_insert|]); simp_st; rewrite insert_insert.
  2:{ apply wp_bind. eapply wp_free_obj; [simp_st; by rewrite lookup_insert|]. do 2 apply wp_ret. simp_st. rewrite delete_insert by done. fin_fail. }
  cbn [mem objs] in Hp. replace (length l + 5 * k1 + k2 + 3) with (length [34%Z] + (length (concat (json_char <$> l)) + (length [34%Z] + 1))) by (simpl length; lia).
  assert (c <> CPtr p) as Hne. { intros ->. destruct Hs as (_&rest&Hs). congruence. }
  apply wp_bind, (put_chars_ok p []). rewrite app_nil_l. apply wp_bind. eapply (json_write_ok c p [] l); [eapply src_frame; [exact Hs|done]|done|done|]. apply wp_bind, put_chars_ok. apply wp_bind.
  eapply (wp_set_char _ _ None []); [simp_st; by rewrite lookup_insert|by rewrite bb_length|]. simp_st. rewrite insert_insert. do 2 apply wp_ret.
  eapply (post_effect _ _ _ _ (<[h := json l]> a)).
  - apply (rep_replace _ _ s a h None); try done; [by apply owned_new|]. rewrite <-app_assoc. apply str_ok_intro. split; [|done]. by apply json_chars.
  - cbn [effect]. rewrite Hd, decide_False, decide_True by done. exists h. split; [by eapply fresh_not_in|done].
Qed.

(** Functions that replace the block of a string. *)
Lemma realloc_take l rest n k : k <= length l -> k <= n ->
  take k (take n (str_block l rest) ++ fresh_block (n - length (str_block l rest))) = bytes_block (take k l).
Proof.
  intros H1 H2. rewrite take_app_le by (rewrite take_length, str_block_length; lia). rewrite take_take, Nat.min_l by done.
  unfold str_block. rewrite take_app_le by (rewrite bb_length; lia). unfold bytes_block. by rewrite fmap_take.
Qed.
Lemma realloc_length (b : block) n : length (take n b ++ fresh_block (n - length b)) = n.
Proof. rewrite app_length, take_length, fresh_length. lia. Qed.
Lemma realloc_split l rest n k : k <= length l -> k <= n -> exists x, length x = n - k /\
  take n (str_block l rest) ++ fresh_block (n - length (str_block l rest)) = bytes_block (take k l) ++ x.
Proof.
  intros H1 H2. eexists. split; [|erewrite <-(take_drop k) at 1; by rewrite realloc_take].
  by rewrite drop_length, realloc_length.
Qed.
(** realloc_flex on the block of h, then s1->s = temp and a filling in. *)
Lemma wp_regrow s a h p l rest b n (k : ptr -> positive -> MS Z) (Q : Z -> st STRING -> Prop) :
  srep s a -> a !! h = Some l -> objs s !! h = Some (Str (Some p)) -> mem s !! p = Some (str_block l rest) ->
  ((Z.of_nat (b + n) <= UINT64_MAX)%Z -> forall q orc, q <> p -> mem s !! q = None ->
     (forall l' rest', string_ok l' -> srep (St (<[q := str_block l' rest']> (delete p (mem s))) (<[h := Str (Some q)]> (objs s)) orc (fails s)) (<[h := l']> a)) ->
     wp (k (Some q) q) (St (<[q := take (b + n) (str_block l rest) ++ fresh_block (b + n - length (str_block l rest))]> (delete p (mem s))) (<[h := Str (Some q)]> (objs s)) orc (fails s)) Q) ->
  (forall s', srep s' a -> (fails s < fails s' \/ (UINT64_MAX < Z.of_nat (b + n))%Z) -> Q 1%Z s') ->
  wp (let* temp := realloc_flex (Some p) b n 1 in match temp with None => ret 1%Z | Some q => set_obj h (Str temp) ;;; k temp q end) s Q.
Proof.
  intros R Hl Ho Hm HK HN. rewrite rflex. apply wp_bind. case_decide as Hf.
  - eapply wp_realloc; [done|intros q o Hne Hq|intros o; apply wp_ret, HN; [by apply rep_oracle|simp_st; left; lia]].
    apply wp_bind. eapply wp_set_obj; [simp_st; done|]. simp_st. apply HK; [done..|].
    intros l' rest' Hl'. apply (rep_replace _ _ s a h (Some p)); try done; [by apply owned_of|by apply str_ok_intro].
  - apply wp_ret, wp_ret, HN; [done|right; lia].
Qed.
Lemma arg_apart s a h t c p : srep s a -> arg_ok s a t (Some c) -> objs s !! h = Some (Str (Some p)) -> apart (Some h) t -> c <> CPtr p.
Proof.
  intros R Hc Ho Hap ->. destruct (arg_some _ _ _ _ Hc) as (l&_&_&_&H). destruct (H p eq_refl) as (h'&->&Ho'). simpl in Hap.
  apply Hap. by eapply (rep_inj _ _ _ _ R).
Qed.
Lemma src_moved (s : st STRING) c l p q x (os : gmap positive STRING) orc f : src_is s c l -> c <> CPtr p -> mem s !! q = None ->
  src_is (St (<[q := x]> (delete p (mem s))) os orc f) c l /\ c <> CPtr q.
Proof.
  intros Hs Hne Hq. assert (c <> CPtr q) as Hne'. { intros ->. destruct Hs as (_&rest&Hs). congruence. } split; [|done].
  eapply src_frame; [done|]. intros r ->. simp_st. by rewrite lookup_insert_ne, lookup_delete_ne by congruence.
Qed.
Lemma src_own (s : st STRING) a h l p rest : srep s a -> a !! h = Some l -> objs s !! h = Some (Str (Some p)) -> mem s !! p = Some (str_block l rest) -> src_is s (CPtr p) l.
Proof.
  intros R Hl Ho Hm. split; [|by exists rest]. destruct (get_str _ _ _ _ R Hl) as (?&?&_&_&Hok). by apply string_ok_zfree.
Qed.

Lemma run_concat h t s a : srep s a -> live a h -> text_ok a t -> apart h t -> wp (run (Concat h t)) s (post (Concat h t) s a).
Proof.
  intros R Hl Ht Hap. simpl. apply wp_bind. eapply wp_eval; [done..|]. intros c Hc. apply wp_bind. destruct h as [h|]; [|destruct c; by null_arg].
  destruct Hl as [l1 Hl]. destruct c as [c|].
  2:{ null_arg. simpl. exists l1. by rewrite (arg_null _ _ _ Hc). }
  destruct (arg_some _ _ _ _ Hc) as (l2&Hd&Hs&Hok2&_). destruct (get_str _ _ _ _ R Hl) as (p&rest&Ho&Hm&Hok1).
  pose proof (arg_apart _ _ _ _ _ _ R Hc Ho Hap) as Hne. cbn [STRING_concat].
  apply wp_bind. eapply wp_get_obj; [done|]. cbn [s_ own]. apply wp_bind, wp_ret, wp_bind. eapply wp_strlen; [by eapply src_own|]. apply wp_bind. eapply wp_strlen; [done|].
  assert (HF : fits (length (l1 ++ l2)) <-> (Z.of_nat (length l1 + (length l2 + 1)) <= UINT64_MAX)%Z) by (unfold fits; rewrite app_length; lia).
  eapply (wp_regrow s a h p l1 rest (length l1) (length l2 + 1) (fun temp _ => strcpy_n temp (length l1) c 0 (length l2 + 1) ;;; ret 0%Z)); [done..| |].
  - intros Hf q orc Hq Hmq HR. destruct (realloc_split l1 rest (length l1 + (length l2 + 1)) (length l1)) as (x&Hx&->); [lia..|]. rewrite take_ge by done.
    apply wp_bind. destruct (src_moved s c l2 p q (bytes_block l1 ++ x) (<[h:=Str (Some q)]> (objs s)) orc (fails s) Hs Hne Hmq) as [Hs' Hne'].
    eapply (wp_strcpy_at _ (bytes_block l1) x []); [simp_st; rewrite lookup_insert, app_nil_r; done|by rewrite bb_length|lia|done|done|done|].
    simp_st. rewrite insert_insert. do 2 apply wp_ret. rewrite take_ge by (rewrite app_length; simpl; lia). rewrite str_block_app.
    apply HF in Hf. eapply post_effect; [by apply HR, string_ok_app|]. simpl. exists l1. rewrite Hd, decide_True by done. done.
  - intros s' R' Hno. apply wp_ret. destruct Hno; [by apply post_failed|]. eapply post_effect; [done|]. simpl. exists l1. rewrite Hd, decide_False by (rewrite HF; lia). done.
Qed.
Lemma run_concat_string h1 h2 s a : srep s a -> live a h1 -> live a h2 -> (h1 = None \/ h1 <> h2) -> wp (run (ConcatString h1 h2)) s (post (ConcatString h1 h2) s a).
Proof.
  intros R Hl1 Hl2 Hne. cbn [run]. apply wp_bind. destruct h1 as [h1|]; [|null_arg; done].
  destruct Hl1 as [l1 Hl1]. destruct h2 as [h2|]; [|null_arg; simpl; by exists l1].
  destruct Hl2 as [l2 Hl2]. destruct Hne as [|Hne]; [done|]. assert (h1 <> h2) as Hne' by congruence.
  destruct (get_str _ _ _ _ R Hl1) as (p&rest&Ho&Hm&Hok1). destruct (get_str _ _ _ _ R Hl2) as (p2&rest2&Ho2&Hm2&Hok2).
  assert (p2 <> p). { intros ->. apply Hne'. by eapply (rep_inj _ _ _ _ R). }
  assert (CPtr p2 <> CPtr p) as Hnep by congruence. pose proof (src_own _ _ _ _ _ _ R Hl2 Ho2 Hm2) as Hs.
  cbn [STRING_concat_with_STRING]. apply wp_bind. eapply wp_get_obj; [done|]. apply wp_bind. eapply wp_get_obj; [done|]. cbn [s_ own]. apply wp_bind, wp_ret, wp_bind. eapply wp_strlen; [exact (src_own _ _ _ _ _ _ R Hl1 Ho Hm)|]. apply wp_bind, wp_ret, wp_bind. eapply wp_strlen; [done|].
  assert (HF : fits (length (l1 ++ l2)) <-> (Z.of_nat (length l1 + (length l2 + 1)) <= UINT64_MAX)%Z) by (unfold fits; rewrite app_length; lia).
  eapply (wp_regrow s a h1 p l1 rest (length l1) (length l2 + 1) (fun temp _ => let* src := get_obj h2 in let* c2 := own (s_ src) in strcpy_n temp (length l1) c2 0 (length l2 + 1) ;;; ret 0%Z)); [done..| |].
  - intros Hf q orc Hq Hmq HR. destruct (realloc_split l1 rest (length l1 + (length l2 + 1)) (length l1)) as (x&Hx&->); [lia..|]. rewrite take_ge by done.
    apply wp_bind. eapply wp_get_obj; [simp_st; by rewrite lookup_insert_ne|]. cbn [s_ own]. apply wp_bind, wp_ret.
    apply wp_bind. destruct (src_moved s _ l2 p q (bytes_block l1 ++ x) (<[h1:=Str (Some q)]> (objs s)) orc (fails s) Hs Hnep Hmq) as [Hs' Hnep'].
    eapply (wp_strcpy_at _ (bytes_block l1) x []); [simp_st; rewrite lookup_insert, app_nil_r; done|by rewrite bb_length|lia|done|done|done|].
    simp_st. rewrite insert_insert. do 2 apply wp_ret. rewrite take_ge by (rewrite app_length; simpl; lia). rewrite str_block_app.
    apply HF in Hf. eapply post_effect; [by apply HR, string_ok_app|]. simpl. exists l1. split; [done|]. exists l2. rewrite decide_True by done. done.
  - intros s' R' Hno. apply wp_ret. destruct Hno; [by apply post_failed|]. eapply post_effect; [done|]. simpl. exists l1. split; [done|]. exists l2. rewrite decide_False by (rewrite HF; lia). done.
Qed.
Lemma wp_memmove_at {O} d w x r c l n off (s : st O) (Q : unit -> st O -> Prop) :
  mem s !! d = Some (w ++ x ++ r) -> off = length w -> length x = n -> src_is s c l -> n <= length l + 1 ->
  Q tt (St (<[d := w ++ bytes_block (take n (l ++ [0%Z])) ++ r]> (mem s)) (objs s) (oracle s) (fails s)) -> wp (memmove (Some d) off c n) s Q.
Proof.
  intros Hd -> Hx [Hz Hc] Hn HQ. destruct c as [arr|p]; unfold memmove; destruct Hc as [rest Hc].
  - subst arr. eapply wp_memcpy_from; [done|rewrite app_length; simpl; lia|rewrite !app_length; lia|].
    assert (take n (l ++ 0%Z :: rest) = take n (l ++ [0%Z])) as ->.
    { change (l ++ 0%Z :: rest) with (l ++ [0%Z] ++ rest). rewrite app_assoc. apply take_app_le. rewrite app_length. simpl. lia. }
    rewrite take_app_alt by done. rewrite drop_app_ge by lia. replace (length w + n - length w) with n by lia. by rewrite drop_app_alt.
  - assert (take n (drop 0 (str_block l rest)) = bytes_block (take n (l ++ [0%Z]))) as E.
    { rewrite drop_0, str_block_eq. unfold bytes_block. rewrite fmap_take. apply take_app_le. rewrite fmap_length, app_length. simpl. lia. }
    case_decide as Hn0.
    + apply wp_ret. subst n. rewrite Hn0 in HQ. destruct x; [|done]. rewrite take_0 in HQ. simpl in *. rewrite insert_id in HQ by done. by rewrite st_eta in HQ.
    + apply wp_bind. eapply wp_load; [done|rewrite str_block_length; lia|]. rewrite E. eapply wp_store_at; [done|done| |done].
      rewrite bb_length, take_length, app_length. simpl. lia.
Qed.
#[local] Instance csrc_eq_dec : EqDecision csrc.
Proof. solve_decision. Defined.
Lemma run_copy h t s a : srep s a -> live a h -> text_ok a t -> wp (run (Copy h t)) s (post (Copy h t) s a).
Proof.
  intros R Hl Ht. cbn [run]. apply wp_bind. eapply wp_eval; [done..|]. intros c Hc. apply wp_bind. destruct h as [h|]; [|destruct c; by null_arg].
  destruct Hl as [l1 Hl]. destruct c as [c|].
  2:{ null_arg. simpl. exists l1. by rewrite (arg_null _ _ _ Hc). }
  destruct (arg_some _ _ _ _ Hc) as (l2&Hd&Hs&Hok2&Hown). destruct (get_str _ _ _ _ R Hl) as (p&rest&Ho&Hm&Hok1).
  cbn [STRING_copy]. apply wp_bind. eapply wp_get_obj; [done|]. cbn [s_ own]. apply wp_bind, wp_ret.
  destruct (decide (c = CPtr p)) as [->|Hne].
  { rewrite bool_decide_true by done. destruct (Hown p eq_refl) as (h'&->&Ho'). assert (h' = h) as -> by (by eapply (rep_inj _ _ _ _ R)).
    cbn [denotes] in Hd. simplify_eq. do 2 apply wp_ret. eapply post_effect; [done|]. simpl. exists l1. rewrite Hl. split; [done|]. split; [done|]. by rewrite insert_id. }
  assert ((match c with CExt _ => false | CPtr q => bool_decide (p = q) end) = false) as ->.
  { destruct c; [done|]. apply bool_decide_eq_false. congruence. }
  apply wp_bind. eapply wp_strlen; [done|].
  eapply (wp_regrow s a h p l1 rest 1 (length l2) (fun temp _ => memmove temp 0 c (length l2 + 1) ;;; ret 0%Z)); [done..| |].
  - intros Hf q orc Hq Hmq HR. destruct (realloc_split l1 rest (1 + length l2) 0) as (x&Hx&->); [lia..|]. rewrite take_0.
    apply wp_bind. destruct (src_moved s c l2 p q (bytes_block [] ++ x) (<[h:=Str (Some q)]> (objs s)) orc (fails s) Hs Hne Hmq) as [Hs' Hne'].
    eapply (wp_memmove_at _ (bytes_block []) x []); [simp_st; rewrite lookup_insert, app_nil_r; done|done|lia|done|done|].
    simp_st. rewrite insert_insert. do 2 apply wp_ret. rewrite take_ge by (rewrite app_length; simpl; lia). rewrite str_block_app.
    eapply post_effect; [by apply HR|]. simpl. exists l1. rewrite Hd. done.
  - intros s' R' Hno. apply wp_ret. destruct Hok2 as [_ Hf]. unfold fits in Hf. destruct Hno; [by apply post_failed|lia].
Qed.
Lemma run_copy_n h t n s a : srep s a -> live a h -> text_ok a t -> apart h t -> wp (run (CopyN h t n)) s (post (CopyN h t n) s a).
Proof.
  intros R Hl Ht Hap. cbn [run]. apply wp_bind. eapply wp_eval; [done..|]. intros c Hc. apply wp_bind. destruct h as [h|]; [|destruct c; by null_arg].
  destruct Hl as [l1 Hl]. destruct c as [c|].
  2:{ null_arg. simpl. exists l1. by rewrite (arg_null _ _ _ Hc). }
  destruct (arg_some _ _ _ _ Hc) as (l2&Hd&Hs&Hok2&Hown). destruct (get_str _ _ _ _ R Hl) as (p&rest&Ho&Hm&Hok1).
  pose proof (arg_apart _ _ _ _ _ _ R Hc Ho Hap) as Hne.
  cbn [STRING_copy_n]. apply wp_bind. eapply wp_get_obj; [done|]. cbn [s_]. apply wp_bind. eapply wp_strlen; [done|].
  assert ((if decide (n < length l2) then n else length l2) = length (take n l2)) as ->.
  { rewrite take_length. case_decide; lia. }
  set (k := length (take n l2)). assert (k <= length l2) as Hk by (unfold k; rewrite take_length; lia).
  assert (take k l2 = take n l2) as Ek. { unfold k. rewrite take_length. destruct (decide (n <= length l2)); [by rewrite Nat.min_l by lia|]. rewrite Nat.min_r by lia. by rewrite !take_ge by lia. }
  eapply (wp_regrow s a h p l1 rest 1 k (fun temp _ => strcpy_n temp 0 c 0 k ;;; set_char temp k 0 ;;; ret 0%Z)); [done..| |].
  - intros Hf q orc Hq Hmq HR. destruct (realloc_split l1 rest (1 + k) 0) as (x&Hx&->); [lia..|]. rewrite take_0. change (bytes_block [] ++ x) with x.
    assert (exists x1 y, x = x1 ++ [y] /\ length x1 = k) as (x1&y&->&Hx1).
    { destruct (decide (x = [])) as [->|Hx0]; [simpl in Hx; lia|]. apply exists_last in Hx0 as (x1&y&->). rewrite app_length in Hx. simpl in Hx. exists x1, y. split; [done|lia]. }
    apply wp_bind. destruct (src_moved s c l2 p q (x1 ++ [y]) (<[h:=Str (Some q)]> (objs s)) orc (fails s) Hs Hne Hmq) as [Hs' Hne'].
    eapply (wp_strcpy_at _ [] x1 [y]); [simp_st; by rewrite lookup_insert|done|lia|done|done|lia|].
    simp_st. rewrite insert_insert. apply wp_bind. rewrite take_app_le by done. rewrite Ek.
    eapply (wp_set_char _ (bytes_block (take n l2)) y []); [simp_st; by rewrite lookup_insert|by rewrite bb_length|]. simp_st. rewrite insert_insert. do 2 apply wp_ret.
    eapply post_effect; [by apply HR, string_ok_take|]. simpl. exists l1. rewrite Hd. done.
  - intros s' R' Hno. apply wp_ret. destruct Hok2 as [_ Hf]. unfold fits in Hf. destruct Hno; [by apply post_failed|lia].
Qed.
Lemma run_sprintf h f s a : srep s a -> live a h -> fmt_ok f -> wp (run (Sprintf h f)) s (post (Sprintf h f) s a).
Proof.
  intros R Hl Hf. cbn [run]. apply wp_bind. destruct h as [h|]; [|by destruct f as [[|[|] []]|]; null_arg].
  destruct Hl as [l1 Hl]. destruct f as [[|l2 sec]|]; [null_arg; simpl; by exists l1| |null_arg; simpl; by exists l1].
  destruct l2 as [|c l2].
  { null_arg. simpl. exists l1. split; [done|]. split; [done|]. by rewrite insert_id. }
  cbn [STRING_sprintf]. set (l := c :: l2) in *. destruct (get_str _ _ _ _ R Hl) as (p&rest&Ho&Hm&Hok1).
  apply wp_bind. eapply wp_get_obj; [done|]. cbn [s_ own]. apply wp_bind, wp_ret, wp_bind. eapply wp_strlen; [by eapply src_own|].
  assert (HF : fits (length (l1 ++ l)) <-> (Z.of_nat (length l1 + (length l + 1)) <= UINT64_MAX)%Z) by (unfold fits; rewrite app_length; lia).
  eapply (wp_regrow s a h p l1 rest (length l1) (length l + 1) (fun temp _ => let* ok := vsnprintf temp (length l1) l sec in if (ok : bool) then ret 0%Z else set_char temp (length l1) 0 ;;; ret 1%Z)); [done..| |].
  - intros Hf' q orc Hq Hmq HR. destruct (realloc_split l1 rest (length l1 + (length l + 1)) (length l1)) as (x&Hx&->); [lia..|]. rewrite take_ge by done.
    apply wp_bind. destruct sec as [junk|]; cbn [vsnprintf]; apply wp_bind.
    + eapply wp_store; [simp_st; by rewrite lookup_insert|rewrite app_length, bb_length, take_length; lia|].
      simp_st. rewrite insert_insert. apply wp_ret. rewrite take_app_alt by (by rewrite bb_length).
      apply wp_bind. match goal with |- context [bytes_block l1 ++ ?X] => set (j := X) end.
      assert (exists y j', j = y :: j') as (y&j'&Hj).
      { assert (length j <> 0) as Hj. { unfold j. rewrite app_length, take_length, drop_length, app_length, bb_length. lia. } destruct j; [done|eauto]. }
      rewrite Hj. eapply wp_set_char; [simp_st; by rewrite lookup_insert|by rewrite bb_length|]. simp_st. rewrite insert_insert. do 2 apply wp_ret.
      eapply (post_effect _ _ _ _ a); [|unfold l; simpl; by exists l1]. specialize (HR l1 j' Hok1). rewrite (insert_id a) in HR by done. exact HR.
    + eapply (wp_store_at _ (bytes_block l1) x []); [simp_st; rewrite lookup_insert, app_nil_r; done|by rewrite bb_length|rewrite bb_length, app_length; change (length [0%Z]) with 1; lia|].
      simp_st. rewrite insert_insert, str_block_app. do 3 apply wp_ret. apply HF in Hf'. 
      eapply post_effect; [by apply HR, string_ok_app|]. simpl. exists l1. fold l. rewrite decide_True by done. done.
  - intros s' R' Hno. apply wp_ret. destruct Hno; [by apply post_failed|]. eapply post_effect; [done|]. destruct sec; simpl; exists l1; fold l; [done|]. rewrite decide_False by (rewrite HF; lia). done.
Qed.
Lemma run_quote h s a : srep s a -> live a h -> wp (run (Quote h)) s (post (Quote h) s a).
Proof.
  intros R Hl. cbn [run]. apply wp_bind. destruct h as [h|]; [|null_arg; done].
  destruct Hl as [l Hl]. destruct (get_str _ _ _ _ R Hl) as (p&rest&Ho&Hm&Hok).
  cbn [STRING_quote]. apply wp_bind. eapply wp_get_obj; [done|]. cbn [s_ own]. apply wp_bind, wp_ret, wp_bind. eapply wp_strlen; [by eapply src_own|].
  assert (HF : fits (length ([34%Z] ++ l ++ [34%Z])) <-> (Z.of_nat (3 + length l) <= UINT64_MAX)%Z) by (unfold fits; rewrite !app_length; simpl; lia).
  eapply wp_mono; [eapply (wp_regrow s a h p l rest 3 (length l) (fun temp l' => memmove temp 1 (CPtr l') (length l) ;;;
      set_char temp 0 34 ;;; set_char temp (length l + 1) 34 ;;; set_char temp (length l + 2) 0 ;;; ret 0%Z) (fun z s' => post (Quote (Some h)) s a (RInt z) s')); [done..| |]|].
  - intros Hf q orc Hq Hmq HR. destruct (realloc_split l rest (3 + length l) (length l)) as (x&Hx&->); [lia..|]. rewrite take_ge by done.
    destruct x as [|x0 [|x1 [|x2 [|]]]]; simpl length in Hx; try lia.
    apply wp_bind. eapply (wp_mono _ _ (fun _ s' => exists y z, s' = St (<[q := [y] ++ bytes_block l ++ [z; x2]]> (delete p (mem s))) (<[h := Str (Some q)]> (objs s)) orc (fails s))).
    { unfold memmove. case_decide as H0; [apply wp_ret; destruct l; [|done]; by exists x0, x1|].
      apply wp_bind. eapply wp_load; [simp_st; by rewrite lookup_insert|rewrite app_length, bb_length; simpl; lia|].
      rewrite drop_0, take_app_alt by (by rewrite bb_length).
      eapply wp_store; [simp_st; by rewrite lookup_insert|rewrite app_length, bb_length; simpl; lia|]. simp_st. rewrite insert_insert.
      rewrite bb_length. destruct l as [|c l]; [done|]. exists (Some c), x1. do 2 f_equal. rewrite drop_app_ge by (rewrite bb_length; lia).
      rewrite bb_length. replace (1 + length (c :: l) - length (c :: l)) with 1 by lia. done. }
    intros [] s' (y&z&->). apply wp_bind. eapply (wp_set_char _ [] y); [simp_st; by rewrite lookup_insert|done|]. simp_st. rewrite insert_insert. apply wp_bind.
    eapply (wp_set_char _ (Some 34%Z :: bytes_block l) z [x2]); [simp_st; by rewrite lookup_insert|simpl; rewrite bb_length; lia|].
    simp_st. rewrite insert_insert. apply wp_bind. eapply (wp_set_char _ (Some 34%Z :: bytes_block l ++ [Some 34%Z]) x2 []); [simp_st; rewrite lookup_insert; simpl; by rewrite <-app_assoc|simpl; rewrite app_length, bb_length; simpl; lia|].
    simp_st. rewrite insert_insert. apply wp_ret. apply HF in Hf.
    eapply (post_effect _ _ _ _ (<[h := [34%Z] ++ l ++ [34%Z]]> a)); [|simpl; exists l; rewrite decide_True by done; done].
    specialize (HR _ [] (string_ok_quoted _ Hok Hf)). unfold str_block in HR. rewrite !bytes_block_app in HR. exact HR.
  - intros s' R' Hno. destruct Hno; [by apply post_failed|]. eapply post_effect; [done|]. cbn [effect]. exists l. rewrite decide_False by (rewrite HF; lia). done.
  - intros z s' H. by apply wp_ret.
Qed.
Lemma run_empty h s a : srep s a -> live a h -> wp (run (Empty h)) s (post (Empty h) s a).
Proof.
  intros R Hl. cbn [run]. apply wp_bind. destruct h as [h|]; [|null_arg; done].
  destruct Hl as [l Hl]. destruct (get_str _ _ _ _ R Hl) as (p&rest&Ho&Hm&Hok).
  cbn [STRING_empty]. apply wp_bind. eapply wp_get_obj; [done|]. cbn [s_]. apply wp_bind.
  eapply wp_realloc; [done|intros q o Hne Hq|intros o; do 2 apply wp_ret; fin_fail]. apply wp_bind. eapply wp_set_obj; [simp_st; done|]. simp_st.
  destruct (realloc_split l rest 1 0) as (x&Hx&->); [lia..|]. destruct x as [|x [|]]; simpl in Hx; try lia. rewrite take_0. apply wp_bind.
  eapply (wp_set_char _ [] x []); [simp_st; by rewrite lookup_insert|done|]. simp_st. rewrite insert_insert. do 2 apply wp_ret.
  eapply (post_effect _ _ _ _ (<[h := []]> a)); [|simpl; by exists l]. apply (rep_replace _ _ s a h (Some p)); try done; [by apply owned_of|]. apply (str_ok_intro q []), string_ok_nil.
Qed.
Lemma run_delete h s a : srep s a -> live a h -> wp (run (Delete h)) s (post (Delete h) s a).
Proof.
  intros R Hl. cbn [run]. apply wp_bind. destruct h as [h|]; [|do 2 apply wp_ret; by eapply post_effect].
  destruct Hl as [l Hl]. destruct (get_str _ _ _ _ R Hl) as (p&rest&Ho&Hm&Hok).
  cbn [STRING_delete]. apply wp_bind. eapply wp_get_obj; [done|]. cbn [s_]. apply wp_bind. eapply wp_free; [done|]. apply wp_bind. eapply wp_set_obj; [simp_st; done|].
  eapply wp_free_obj; [simp_st; by rewrite lookup_insert|]. simp_st. rewrite delete_insert_delete. apply wp_ret.
  eapply (post_effect _ _ _ _ (delete h a)); [|done]. apply (rep_free _ _ s a h (Some p)); [done|]. by apply owned_of.
Qed.
Lemma run_c_str h s a : srep s a -> live a h -> wp (run (CStr h)) s (post (CStr h) s a).
Proof.
  intros R Hl. cbn [run]. apply wp_bind. destruct h as [h|]; [|do 2 apply wp_ret; by eapply post_effect].
  destruct Hl as [l Hl]. destruct (get_str _ _ _ _ R Hl) as (p&rest&Ho&Hm&Hok).
  cbn [STRING_c_str]. apply wp_bind. eapply wp_get_obj; [done|]. apply wp_ret. cbn [s_]. apply wp_bind. eapply wp_strlen; [by eapply src_own|].
  apply wp_bind. eapply wp_load; [done|rewrite str_block_length; lia|]. apply wp_ret. eapply post_effect; [done|]. simpl. exists l. split; [done|]. split; [|done].
  do 2 f_equal. rewrite drop_0, str_block_eq. apply take_app_alt. rewrite bb_length, app_length. done.
Qed.
Lemma run_length h s a : srep s a -> live a h -> wp (run (Length h)) s (post (Length h) s a).
Proof.
  intros R Hl. cbn [run]. apply wp_bind. destruct h as [h|]; [|do 2 apply wp_ret; by eapply post_effect].
  destruct Hl as [l Hl]. destruct (get_str _ _ _ _ R Hl) as (p&rest&Ho&Hm&Hok).
  cbn [STRING_length]. apply wp_bind. eapply wp_get_obj; [done|]. cbn [s_ own]. apply wp_bind, wp_ret. eapply wp_strlen; [by eapply src_own|].
  apply wp_ret. eapply post_effect; [done|]. simpl. exists l. done.
Qed.
Lemma run_construct_n t n s a : srep s a -> text_ok a t -> wp (run (ConstructN t n)) s (post (ConstructN t n) s a).
Proof.
  intros R Ht. cbn [run]. apply wp_bind. eapply wp_eval; [done..|]. intros [c|] Hc; apply wp_bind; cbn [STRING_construct_n].
  2:{ null_arg. simpl. by rewrite (arg_null _ _ _ Hc). }
  destruct (arg_some _ _ _ _ Hc) as (l&Hd&Hs&Hok&_). apply wp_bind. eapply wp_strlen; [done|].
  destruct (decide (length l < n)) as [Hn|Hn].
  { null_arg. simpl. rewrite Hd, decide_True by done. done. }
  eapply (wp_construct_with _ (n + 1) _ (take n l)); [done|by apply string_ok_take|done| | |].
  - intros h p orc Hh Hp. assert (c <> CPtr p) as Hne. { intros ->. destruct Hs as (_&rest&Hs). congruence. }
    apply wp_bind. rewrite fresh_app.
    eapply (wp_strcpy_at _ [] (fresh_block n) (fresh_block 1) _ l); [simp_st; by rewrite lookup_insert|done|by rewrite fresh_length| |done|lia|].
    { eapply src_frame; [done|]. intros q ->. simp_st. rewrite lookup_insert_ne by congruence. done. }
    simp_st. rewrite insert_insert, take_app_le by lia. eapply (wp_set_char _ (bytes_block (take n l)) None []); [simp_st; by rewrite lookup_insert|rewrite bb_length, take_length; lia|].
    simp_st. rewrite insert_insert. by exists [], orc.
  - intros h s' Hh R'. apply wp_ret. eapply post_effect; [done|]. cbn [effect]. rewrite Hd, decide_False by done. by exists h.
  - intros s' R' Hfl. apply wp_ret. by apply post_failed.
Qed.
Lemma cmp0_ok l1 : forall l2 r1 r2, Forall (fun c => 0 < c <= 255)%Z l1 -> Forall (fun c => 0 < c <= 255)%Z l2 ->
  exists z, cmp0 (str_block l1 r1) (str_block l2 r2) = Some z /\ (z = 0%Z <-> l1 = l2) /\ ((z < 0)%Z <-> before l1 l2) /\ ((0 < z)%Z <-> before l2 l1).
Proof.
  induction l1 as [|c1 l1 IH]; intros [|c2 l2] r1 r2 H1 H2; unfold str_block; cbn [bytes_block fmap list_fmap app cmp0 before].
  - exists 0%Z. simpl. split; [done|]. split; [done|]. split; [lia|]. lia.
  - apply Forall_cons in H2 as [H2 _]. rewrite decide_False, decide_True by lia. exists (-1)%Z. split; [done|]. split; [done|]. split; lia.
  - apply Forall_cons in H1 as [H1 _]. rewrite decide_False, decide_False by lia. exists 1%Z. split; [done|]. split; [done|]. split; lia.
  - apply Forall_cons in H1 as [H1 Hl1]. apply Forall_cons in H2 as [H2 Hl2]. destruct (decide (c1 = c2)) as [->|Hne].
    + rewrite decide_False by lia. destruct (IH l2 r1 r2 Hl1 Hl2) as (z&Hz&E&L&G). exists z. split; [exact Hz|].
      split; [rewrite E; split; [by intros ->|by intros [= ->]]|]. split; [rewrite L|rewrite G]; (split; [tauto|intros [?|[_ ?]]; [lia|done]]).
    + eexists. split; [done|]. case_decide; (split; [split; [lia|intros [=]; lia]|]); split; lia.
Qed.
Lemma run_compare h1 h2 s a : srep s a -> live a h1 -> live a h2 -> wp (run (Compare h1 h2)) s (post (Compare h1 h2) s a).
Proof.
  intros R Hl1 Hl2. cbn [run]. apply wp_bind. destruct h1 as [h1|], h2 as [h2|]; try (null_arg; done).
  destruct Hl1 as [l1 Hl1], Hl2 as [l2 Hl2].
  destruct (get_str _ _ _ _ R Hl1) as (p&rest&Ho&Hm&Hok1). destruct (get_str _ _ _ _ R Hl2) as (p2&rest2&Ho2&Hm2&Hok2).
  cbn [STRING_compare]. apply wp_bind. eapply wp_get_obj; [done|]. apply wp_bind. eapply wp_get_obj; [done|]. cbn [s_ own]. do 2 apply wp_bind, wp_ret.
  destruct (cmp0_ok l1 l2 rest rest2 (proj1 Hok1) (proj1 Hok2)) as (z&Hz&E).
  apply wp_bind. unfold wp at 1, cells at 1. rewrite Hm. apply wp_bind. unfold wp at 1, cells at 1. rewrite Hm2. rewrite Hz. do 2 apply wp_ret.
  eapply post_effect; [done|]. simpl. exists l1, l2, z. tauto.
Qed.
Lemma until0_block l r : exists rest, bytes_block l ++ Some 0%Z :: r = str_block (until0 l) rest.
Proof.
  induction l as [|c l [rest IH]]; [by exists r|]. cbn [until0]. case_decide as Hc.
  - subst. exists (bytes_block l ++ Some 0%Z :: r). done.
  - exists rest. unfold str_block in *. change (bytes_block (c :: l)) with (Some c :: bytes_block l). change (bytes_block (c :: until0 l)) with (Some c :: bytes_block (until0 l)).
    simpl. by rewrite IH.
Qed.
Lemma until0_ok l : Forall (fun c => 0 <= c <= 255)%Z l -> fits (length l) -> string_ok (until0 l).
Proof.
  intros H Hf. assert (Forall (fun c => 0 < c <= 255)%Z (until0 l) /\ length (until0 l) <= length l) as [H1 H2].
  { clear Hf. induction H as [|c l Hc H IH]; [split; [constructor|simpl; lia]|]. cbn [until0]. case_decide; [split; [constructor|simpl; lia]|]. split; [constructor; [lia|tauto]|simpl; lia]. }
  split; [done|]. unfold fits in *. lia.
Qed.
Lemma run_from_byte_array src n s a : srep s a -> allowed a (FromByteArray src n) -> wp (run (FromByteArray src n)) s (post (FromByteArray src n) s a).
Proof.
  intros R Ha. cbn [run]. apply wp_bind. destruct src as [src|]; cbn [STRING_from_byte_array allowed] in *.
  - destruct Ha as (Hn&Hb&Hmax). rewrite mflex. case_decide as Hf.
    + eapply (wp_construct_with _ (1 + n) _ (until0 (take n src))); [done|apply until0_ok; [by apply Forall_take|unfold fits; rewrite take_length; lia]|done| | |].
      * intros h p orc Hh Hp. replace (1 + n) with (n + 1) by lia. rewrite fresh_app. apply wp_bind.
        eapply wp_memcpy_from; [simp_st; by rewrite lookup_insert|done|rewrite app_length, !fresh_length; lia|]. simp_st. rewrite insert_insert.
        change (0 + n) with n. rewrite drop_app_alt by (by rewrite fresh_length). rewrite take_0, app_nil_l.
        eapply (wp_set_char _ (bytes_block (take n src)) None []); [simp_st; by rewrite lookup_insert|rewrite bb_length, take_length; lia|].
        simp_st. rewrite insert_insert. destruct (until0_block (take n src) []) as [rest ->]. by exists rest, orc.
      * intros h s' Hh R'. apply wp_ret. eapply post_effect; [done|]. cbn [effect]. rewrite decide_True by (unfold fits; lia). by exists h.
      * intros s' R' Hfl. apply wp_ret. by apply post_failed.
    + eapply wp_construct_with_none; [done|]. intros s' R' _. apply wp_ret. eapply post_effect; [done|]. cbn [effect]. rewrite decide_False by (unfold fits; lia). done.
  - destruct n as [|n]; [|rewrite decide_True by lia; by null_arg]. rewrite decide_False by lia. rewrite mflex. rewrite decide_True by (vm_compute; done).
    eapply (wp_construct_with _ 1 _ []); [done|apply string_ok_nil|done| | |].
    + intros h p orc Hh Hp. eapply (wp_set_char _ [] None []); [simp_st; by rewrite lookup_insert|done|]. simp_st. rewrite insert_insert. by exists [], orc.
    + intros h s' Hh R'. apply wp_ret. eapply post_effect; [done|]. simpl. by exists h.
    + intros s' R' Hfl. apply wp_ret. by apply post_failed.
Qed.
Lemma replace_loop_ok {m0 os orc f} p w l r x y (Q : unit -> st STRING -> Prop) :
  Q tt (St (<[p := bytes_block (w ++ ((fun c => if decide (c = x) then y else c) <$> l)) ++ r]> m0) os orc f) ->
  wp (replace_loop (Some p) (length w) (length l) x y) (St (<[p := bytes_block (w ++ l) ++ r]> m0) os orc f) Q.
Proof.
  revert w. induction l as [|c l IH]; intros w HQ; cbn [length replace_loop]; [by apply wp_ret|].
  cbn [own]. apply wp_bind, wp_ret, wp_bind.
  assert (Hcell : bytes_block (w ++ c :: l) ++ r = bytes_block w ++ Some c :: (bytes_block l ++ r)) by (rewrite bytes_block_app, <-app_assoc; done).
  apply wp_bind. unfold wp at 1, cells at 1. cbn [mem]. rewrite lookup_insert, Hcell. rewrite list_lookup_middle by (by rewrite bb_length).
  apply wp_ret, wp_bind. eapply (wp_mono _ _ (fun _ s' => s' = St (<[p := bytes_block ((w ++ [if decide (c = x) then y else c]) ++ l) ++ r]> m0) os orc f)).
  { case_decide as Hc.
    - eapply (wp_set_char _ (bytes_block w) (Some c)); [simp_st; by rewrite lookup_insert|by rewrite bb_length|]. simp_st. rewrite insert_insert. do 2 f_equal. rewrite !bytes_block_app, <-!app_assoc. done.
    - apply wp_ret. do 2 f_equal. rewrite !bytes_block_app, <-!app_assoc. done. }
  intros [] s' ->. replace (S (length w)) with (length (w ++ [if decide (c = x) then y else c])) by (rewrite app_length; simpl; lia).
  apply IH. rewrite <-app_assoc. done.
Qed.
Lemma run_replace h x y s a : srep s a -> live a h -> (0 <= x <= 255 /\ 0 <= y <= 255)%Z -> wp (run (Replace h x y)) s (post (Replace h x y) s a).
Proof.
  intros R Hl Hxy. cbn [run]. apply wp_bind. destruct h as [h|]; [|null_arg; done].
  destruct Hl as [l Hl]. destruct (get_str _ _ _ _ R Hl) as (p&rest&Ho&Hm&Hok). cbn [STRING_replace].
  set (fn := fun c => if decide (c = x) then y else c).
  assert (string_ok (until0 (fn <$> l))) as Hok'.
  { destruct Hok as [Hok Hf]. apply until0_ok; [|by rewrite fmap_length]. apply Forall_fmap. eapply Forall_impl; [exact Hok|]. intros c Hc. unfold compose, fn. simpl in Hc. case_decide; lia. }
  destruct (decide (x = y)) as [->|Hne].
  - null_arg. simpl. exists l. split; [done|]. split; [done|].
    assert (until0 (fn <$> l) = l) as E; [|unfold fn in E; rewrite E; by rewrite insert_id].
    destruct Hok as [Hok _]. clear -Hok. induction Hok as [|c l Hc _ IH]; [done|]. rewrite fmap_cons. cbn [until0].
    assert (fn c = c) as -> by (unfold fn; case_decide; congruence). rewrite decide_False by lia. by rewrite IH.
  - apply wp_bind. eapply wp_get_obj; [done|]. cbn [s_ own]. apply wp_bind, wp_ret, wp_bind. eapply wp_strlen; [by eapply src_own|].
    assert (s = St (<[p := bytes_block ([] ++ l) ++ Some 0%Z :: rest]> (mem s)) (objs s) (oracle s) (fails s)) as Es.
    { rewrite insert_id by done. by rewrite st_eta. }
    match type of Es with _ = ?S => match goal with |- wp ?m _ ?Q => enough (wp m S Q) as W by (rewrite <-Es in W; exact W) end end. clear Es. apply wp_bind. apply (replace_loop_ok p [] l). do 2 apply wp_ret. destruct (until0_block ([] ++ (fn <$> l)) rest) as [rest' E]. unfold fn in E at 1. rewrite E.
    eapply (post_effect _ _ _ _ (<[h := until0 (fn <$> l)]> a)); [|simpl; by exists l].
    pose proof (rep_write _ _ s a h p (Str (Some p)) (until0 (fn <$> l)) (str_block (until0 (fn <$> l)) rest') (oracle s) (fails s) R (owned_of _ _ _ Ho) eq_refl (str_ok_intro _ _ _ Hok')) as W.
    by rewrite (insert_id (objs s)) in W.
Qed.

Theorem step_ok o s a : srep s a -> allowed a o ->
  exists r s' a', run o s = Done (r, s') /\ srep s' a' /\ (effect o a r a' \/ (fails s < fails s' /\ failure o = Some r /\ a' = a)).
Proof.
  intros R Ha. assert (W : wp (run o) s (post o s a)).
  { destruct o; try (by apply run_from_byte_array); simpl in Ha; destruct_and?; eauto using run_new, run_clone, run_construct, run_construct_sprintf, run_new_with_memory,
      run_new_quoted, run_new_json, run_concat, run_concat_string, run_copy, run_copy_n, run_sprintf, run_quote, run_empty, run_delete, run_c_str, run_length, run_construct_n, run_compare, run_replace. }
  apply wp_done in W as (r&s'&Hr&(a'&H)). eauto.
Qed.
Lemma effect_det o a r a1 a2 (s s' : st STRING) :
  (effect o a r a1 \/ (fails s < fails s' /\ failure o = Some r /\ a1 = a)) ->
  (effect o a r a2 \/ (fails s < fails s' /\ failure o = Some r /\ a2 = a)) -> a1 = a2.
Proof.
  assert (D : forall a1 a2, effect o a r a1 -> effect o a r a2 -> a1 = a2).
  { clear. intros a1 a2 H1 H2. destruct o; cbn [effect] in *; unfold answers, creates, becomes in *;
      repeat (first [progress (destruct_and?; destruct_or?; simplify_eq) | match goal with
        | H : context [match ?x with _ => _ end] |- _ => destruct x eqn:?
        | H : exists _, _ |- _ => destruct H end | done]). }
  assert (F : forall a1, effect o a r a1 -> failure o = Some r -> a1 = a).
  { clear. intros a1 H1 H2. destruct o; cbn [effect failure] in *; simplify_eq; unfold answers, creates, becomes in *;
      repeat (first [progress (destruct_and?; destruct_or?; simplify_eq) | match goal with
        | H : context [match ?x with _ => _ end] |- _ => destruct x eqn:?
        | H : exists _, _ |- _ => destruct H end | done]). }
  intros [H1|(_&H1&->)] [H2|(_&H2&->)]; eauto. symmetry. eauto.
Qed.

(** JSON: what is written reads back. *)
Lemma json_body_char c l : (0 < c < 128)%Z -> json_body (json_char c ++ l) = (cons c) <$> json_body l.
Proof.
  intros Hc. unfold json_char. case_decide as H1.
  - assert (hex_digit (nth (Z.to_nat (c / 16)) HEX 0%Z) = Some (c / 16)%Z /\ hex_digit (nth (Z.to_nat (c mod 16)) HEX 0%Z) = Some (c mod 16)%Z) as [E1 E2].
    { assert (0 <= c < 32)%Z as H by lia. clear -H. eapply bool_decide_eq_true_1.
      refine (Base64Proofs.range_forall 32 (fun c => bool_decide (hex_digit (nth (Z.to_nat (c / 16)) HEX 0%Z) = Some (c / 16)%Z /\ hex_digit (nth (Z.to_nat (c mod 16)) HEX 0%Z) = Some (c mod 16)%Z)) _ c _); [vm_compute; reflexivity|lia]. }
    set (h1 := nth (Z.to_nat (c / 16)) HEX 0%Z) in *. set (h2 := nth (Z.to_nat (c mod 16)) HEX 0%Z) in *. cbn [app json_body].
    rewrite (decide_False (P := (92 = 34)%Z)), (decide_False (P := (92 < 32)%Z)), (decide_True (P := (92 = 92)%Z)), (decide_True (P := (117 = 117)%Z)) by (done || lia).
    change (hex_digit 48) with (Some 0%Z). rewrite E1, E2. destruct (json_body l); [|done]. cbn [fmap option_fmap option_map]. do 2 f_equal. pose proof (Z.div_mod c 16). lia.
  - case_decide as H2.
    + assert (escape c = Some c) as E by (unfold escape; by rewrite decide_True).
      assert (c <> 117)%Z. { intros ->. rewrite !elem_of_cons, elem_of_nil in H2. lia. }
      cbn [app json_body]. rewrite (decide_False (P := (92 = 34)%Z)), (decide_False (P := (92 < 32)%Z)), (decide_True (P := (92 = 92)%Z)), decide_False by (done || lia).
      rewrite E. by destruct (json_body l).
    + rewrite !elem_of_cons, elem_of_nil in H2. cbn [app json_body]. rewrite (decide_False (P := (c = 34)%Z)), (decide_False (P := (c < 32)%Z)), (decide_False (P := (c = 92)%Z)) by tauto.
      done.
Qed.
Lemma json_round_trip l : Forall (fun c => 0 < c < 128)%Z l -> json_value (json l) = Some l.
Proof.
  intros H. unfold json_value, json. cbn [app]. rewrite decide_True by done. induction H as [|c l Hc _ IH]; [done|].
  rewrite fmap_cons. cbn [concat]. rewrite <-app_assoc, json_body_char by done. by rewrite IH.
Qed.
