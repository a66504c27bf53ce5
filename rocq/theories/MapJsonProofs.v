From Verif Require Import Common Block CMem CMemFacts CMono CStr StrModel StrSpec StrProofs MapJsonModel MapJsonSpec.
Local Open Scope cmonad_scope.

Definition wide (l : list Z) : Prop := Exists (fun c => 128 <= c)%Z l.

Lemma wp_mono_run {A} (m : MS A) s (Q : A -> st STRING -> Prop) : wp m s Q -> forall (P : A -> st STRING -> Prop),
  (forall r s', m s = Done (r, s') -> Q r s' -> P r s') -> wp m s P.
Proof. unfold wp. intros H P HP. destruct (m s) as [[r s']| |]; [|done..]. by apply HP. Qed.

(** The calls Map_ToJSON makes. *)
Lemma call_new l s a (Q : ptr -> st STRING -> Prop) : srep s a -> string_ok l ->
  (forall r s', fails s <= fails s' -> match r with
     | Some h => a !! h = None /\ srep s' (<[h := l]> a)
     | None => srep s' a /\ (~ fits (length l) \/ fails s < fails s')
     end -> Q r s') -> wp (STRING_construct (cstr l)) s Q.
Proof.
  intros R Hl HQ. destruct (step_ok (Construct (TExt l)) s a R Hl) as (r&s'&a'&Hrun&R'&He).
  cbn [run eval] in Hrun. unfold bind, ret in Hrun. unfold wp, cstr. destruct (STRING_construct _ s) as [[x s1]| |] eqn:E; [|done..]. simplify_eq.
  apply HQ; [by eapply mono_construct|]. cbn [effect denotes failure] in He.
  destruct He as [He|(Hf&[= <-]&->)]; [|auto]. destruct (decide _); [|destruct He as [[= ->] ->]; auto].
  destruct He as (h&Hh&[= ->]&->). done.
Qed.
Lemma call_json l s a (Q : ptr -> st STRING -> Prop) : srep s a -> string_ok l ->
  (forall r s', fails s <= fails s' -> match r with
     | Some h => a !! h = None /\ srep s' (<[h := json l]> a) /\ ~ wide l
     | None => srep s' a /\ (wide l \/ ~ fits (length (json l)) \/ fails s < fails s')
     end -> Q r s') -> wp (STRING_new_JSON (cstr l)) s Q.
Proof.
  intros R Hl HQ. destruct (step_ok (NewJSON (TExt l)) s a R Hl) as (r&s'&a'&Hrun&R'&He).
  cbn [run eval] in Hrun. unfold bind, ret in Hrun. unfold wp, cstr. destruct (STRING_new_JSON _ s) as [[x s1]| |] eqn:E; [|done..]. simplify_eq.
  apply HQ; [by eapply mono_new_json|]. cbn [effect denotes failure] in He.
  destruct He as [He|(Hf&[= <-]&->)]; [|auto]. destruct (decide (Exists _ _)); [destruct He as [[= ->] ->]; auto|].
  destruct (decide _); [|destruct He as [[= ->] ->]; auto]. destruct He as (h&Hh&[= ->]&->). done.
Qed.
Lemma call_concat h l l2 s a (Q : Z -> st STRING -> Prop) : srep s a -> a !! h = Some l -> string_ok l2 ->
  (forall r s', fails s <= fails s' ->
     (r = 0%Z /\ srep s' (<[h := l ++ l2]> a)) \/ (r = 1%Z /\ srep s' a /\ (~ fits (length (l ++ l2)) \/ fails s < fails s')) -> Q r s') ->
  wp (STRING_concat (Some h) (cstr l2)) s Q.
Proof.
  intros R Hl Hl2 HQ. destruct (step_ok (Concat (Some h) (TExt l2)) s a R) as (r&s'&a'&Hrun&R'&He). { split; [by eexists|done]. }
  cbn [run eval] in Hrun. unfold bind, ret in Hrun. unfold wp, cstr. destruct (STRING_concat _ _ s) as [[x s1]| |] eqn:E; [|done..]. simplify_eq.
  apply HQ; [by eapply mono_concat|]. cbn [effect denotes failure] in He.
  destruct He as [(l'&Hl'&He)|(Hf&[= <-]&->)]; [|auto]. simplify_eq. destruct (decide _); destruct He as [[= ->] ->]; auto.
Qed.
Lemma call_concat_string h h2 l l2 s a (Q : Z -> st STRING -> Prop) : srep s a -> a !! h = Some l -> a !! h2 = Some l2 -> h <> h2 ->
  (forall r s', fails s <= fails s' ->
     (r = 0%Z /\ srep s' (<[h := l ++ l2]> a)) \/ (r = 1%Z /\ srep s' a /\ (~ fits (length (l ++ l2)) \/ fails s < fails s')) -> Q r s') ->
  wp (STRING_concat_with_STRING (Some h) (Some h2)) s Q.
Proof.
  intros R Hl Hl2 Hne HQ. destruct (step_ok (ConcatString (Some h) (Some h2)) s a R) as (r&s'&a'&Hrun&R'&He). { split; [by eexists|split; [by eexists|]]. right. congruence. }
  cbn [run] in Hrun. unfold bind, ret in Hrun. unfold wp. destruct (STRING_concat_with_STRING _ _ s) as [[x s1]| |] eqn:E; [|done..]. simplify_eq.
  apply HQ; [by eapply mono_concat_string|]. cbn [effect denotes failure] in He.
  destruct He as [(l'&Hl'&l2'&Hl2'&He)|(Hf&[= <-]&->)]; [|auto]. simplify_eq. destruct (decide _); destruct He as [[= ->] ->]; auto.
Qed.
Lemma call_delete h s a (Q : unit -> st STRING -> Prop) : srep s a -> is_Some (a !! h) ->
  (forall s', fails s <= fails s' -> srep s' (delete h a) -> Q tt s') -> wp (STRING_delete (Some h)) s Q.
Proof.
  intros R Hl HQ. destruct (step_ok (Delete (Some h)) s a R) as (r&s'&a'&Hrun&R'&He). { done. }
  cbn [run] in Hrun. unfold bind, ret in Hrun. unfold wp. destruct (STRING_delete _ s) as [[[] s1]| |] eqn:E; [|done..]. simplify_eq.
  destruct He as [(_&->)|(_&[=]&_)]. apply HQ; [by eapply mono_delete|done].
Qed.

(** What the loop still has to write. *)
Definition later (first : bool) (es : list (list Z * list Z)) : list Z :=
  if first then members_text es else concat ((fun m => [44%Z] ++ member_text m) <$> es).
Lemma later_cons first m es : later first (m :: es) = (if first then [] else [44%Z]) ++ member_text m ++ later false es.
Proof.
  destruct first; unfold later; [|by rewrite fmap_cons; cbn [concat]; rewrite <-app_assoc].
  revert m. induction es as [|m' es IH]; intros m; [by simpl; rewrite app_nil_r|].
  change (members_text (m :: m' :: es)) with (member_text m ++ [44%Z] ++ members_text (m' :: es)). rewrite IH, fmap_cons. done.
Qed.
Definition entry_ok (m : list Z * list Z) : Prop := string_ok m.1 /\ string_ok m.2.
Definition entry_wide (m : list Z * list Z) : Prop := wide m.1 \/ wide m.2.

Lemma unfits n m : ~ fits n -> n <= m -> ~ fits m.
Proof. unfold fits. lia. Qed.
Ltac toolong := match goal with H : ~ fits _ |- ~ fits _ => eapply unfits; [exact H|]; unfold member_text; cbn [fst snd]; rewrite ?app_length; simpl length; lia end.

Lemma add_entry_ok (first : bool) h hk hv (T k v : list Z) s a (Q : bool -> st STRING -> Prop) : srep s a -> a !! h = Some T -> a !! hk = Some k -> a !! hv = Some v -> h <> hk -> h <> hv ->
  (forall (ok : bool) s' (T' : list Z), fails s <= fails s' -> srep s' (<[h := T']> a) ->
     match ok with
     | true => T' = T ++ (if first then [] else [44%Z]) ++ k ++ [58%Z] ++ v
     | false => ~ fits (length (T ++ (if first then [] else [44%Z]) ++ k ++ [58%Z] ++ v)) \/ fails s < fails s'
     end -> Q ok s') ->
  wp (add_entry first (Some h) (Some hk) (Some hv)) s Q.
Proof.
  intros R Hh Hk Hv N1 N2 HQ. unfold add_entry. apply wp_bind.
  assert (Hone : forall c, (0 < c <= 255)%Z -> string_ok [c]). { intros c Hc. split; [by apply Forall_singleton|unfold fits, UINT64_MAX; simpl; lia]. }
  assert (H0 : forall (P : Z -> st STRING -> Prop), (forall r s', fails s <= fails s' -> (r = 0%Z /\ srep s' (<[h := T ++ (if first then [] else [44%Z])]> a)) \/
        (r = 1%Z /\ srep s' a /\ (~ fits (length (T ++ (if first then [] else [44%Z]))) \/ fails s < fails s')) -> P r s') ->
     wp (if first then ret 0%Z else STRING_concat (Some h) (cstr [44%Z])) s P).
  { intros P HP. destruct first.
    - apply wp_ret, HP; [lia|]. left. split; [done|]. rewrite app_nil_r. by rewrite insert_id.
    - eapply call_concat; [done|done|apply Hone; lia|done]. }
  apply H0. clear H0. intros r1 s1 F1 [[-> R1]|(->&R1&E1)].
  2:{ rewrite decide_False by done. apply wp_ret. eapply (HQ _ _ T); [lia|by rewrite insert_id|]. destruct E1 as [E1|E1]; [left|right; lia]. toolong. }
  rewrite decide_True by done. apply wp_bind. eapply call_concat_string; [exact R1|by rewrite lookup_insert|by rewrite lookup_insert_ne|done|].
  intros r2 s2 F2 [[-> R2]|(->&R2&E2)].
  2:{ rewrite decide_False by done. apply wp_ret. eapply HQ; [lia|exact R2|]. destruct E2 as [E2|E2]; [left|right; lia]. toolong. }
  rewrite insert_insert in R2.
  rewrite decide_True by done. apply wp_bind. eapply call_concat; [exact R2|by rewrite lookup_insert|by apply Hone|].
  intros r3 s3 F3 [[-> R3]|(->&R3&E3)].
  2:{ rewrite decide_False by done. apply wp_ret. eapply HQ; [lia|exact R3|]. destruct E3 as [E3|E3]; [left|right; lia]. toolong. }
  rewrite insert_insert in R3.
  rewrite decide_True by done. apply wp_bind. eapply call_concat_string; [exact R3|by rewrite lookup_insert|by rewrite lookup_insert_ne|done|].
  intros r4 s4 F4 [[-> R4]|(->&R4&E4)].
  2:{ apply wp_ret. eapply HQ; [lia|exact R4|]. destruct E4 as [E4|E4]; [left|right; lia]. toolong. }
  rewrite insert_insert in R4. apply wp_ret. eapply HQ; [lia|exact R4|]. by rewrite <-!app_assoc.
Qed.

Lemma loop_ok es : forall first h T s a (Q : bool -> st STRING -> Prop), srep s (<[h := T]> a) -> a !! h = None -> Forall entry_ok es ->
  (forall ok s', fails s <= fails s' ->
     match ok with
     | true => srep s' (<[h := T ++ later first es]> a) /\ Forall (fun m => ~ entry_wide m) es
     | false => srep s' a /\ (Exists entry_wide es \/ ~ fits (length (T ++ later first es)) \/ fails s < fails s')
     end -> Q ok s') ->
  wp (entries_loop first (Some h) es) s Q.
Proof.
  induction es as [|[k v] es IH]; intros first h T s a Q R Ha Hes HQ; cbn [entries_loop].
  { apply wp_ret, HQ; [lia|]. split; [|constructor]. destruct first; unfold later; simpl; by rewrite app_nil_r. }
  inversion Hes as [|? ? [Hk Hv] Hes']; subst. cbn [fst snd] in *. apply wp_bind. eapply call_json; [exact R|done|]. intros [hk|] s1 F1 E1.
  2:{ destruct E1 as [R1 E1]. apply wp_bind. eapply call_delete; [exact R1|by rewrite lookup_insert|]. intros s2 F2 R2. rewrite delete_insert in R2 by done.
      apply wp_ret, HQ; [lia|]. split; [done|]. destruct E1 as [E1|[E1|E1]]; [left; left; by left|right; left|right; right; lia]. rewrite later_cons. toolong. }
  destruct E1 as (K1&R1&W1). apply wp_bind. eapply call_json; [exact R1|done|].
  assert (Nk : h <> hk) by (intros ->; by rewrite lookup_insert in K1). rewrite lookup_insert_ne in K1 by done. intros [hv|] s2 F2 E2.
  2:{ destruct E2 as [R2 E2]. apply wp_bind. eapply call_delete; [exact R2|by rewrite lookup_insert_ne, lookup_insert|]. intros s3 F3 R3.
      rewrite delete_insert_ne, delete_insert in R3 by done. apply wp_bind. eapply call_delete; [exact R3|by rewrite lookup_insert|]. intros s4 F4 R4. rewrite delete_insert in R4 by done.
      apply wp_ret, HQ; [lia|]. split; [done|]. destruct E2 as [E2|[E2|E2]]; [left; left; by right|right; left|right; right; lia]. rewrite later_cons. toolong. }
  destruct E2 as (K2&R2&W2). assert (hk <> hv /\ h <> hv) as [Nkv Nv].
  { split; intros ->; [by rewrite lookup_insert in K2|]. by rewrite lookup_insert_ne, lookup_insert in K2. }
  rewrite !lookup_insert_ne in K2 by done.
  apply wp_bind. eapply add_entry_ok; [exact R2|by rewrite 2!lookup_insert_ne, lookup_insert|by rewrite lookup_insert_ne, lookup_insert|by rewrite lookup_insert|done..|].
  intros ok s3 T' F3 R3 E3. apply wp_bind.
  assert (M : <[h:=T']> (<[hv:=json v]> (<[hk:=json k]> (<[h:=T]> a))) = <[hv:=json v]> (<[hk:=json k]> (<[h:=T']> a))).
  { rewrite (insert_commute _ h hv), (insert_commute _ h hk), insert_insert by done. done. }
  rewrite M in R3. clear M. destruct ok.
  - apply wp_ret, wp_bind. eapply call_delete; [exact R3|by rewrite lookup_insert|]. intros s4 F4 R4. rewrite delete_insert in R4 by by rewrite !lookup_insert_ne.
    apply wp_bind. eapply call_delete; [exact R4|by rewrite lookup_insert|]. intros s5 F5 R5. rewrite delete_insert in R5 by by rewrite !lookup_insert_ne.
    eapply IH; [exact R5|done|done|]. intros ok s6 F6 E6. apply HQ; [lia|].
    assert (EQ : T' ++ later false es = T ++ later first ((k, v) :: es)). { rewrite later_cons, E3. unfold member_text. cbn [fst snd]. by rewrite <-!app_assoc. }
    rewrite EQ in E6. destruct ok; destruct E6 as [R6 E6]; (split; [done|]).
    + constructor; [intros []; tauto|done].
    + destruct E6 as [E6|[E6|E6]]; [left; by right|by right; left|right; right; lia].
  - eapply call_delete; [exact R3|by rewrite 2!lookup_insert_ne, lookup_insert|]. intros s4 F4 R4. rewrite !delete_insert_ne, delete_insert in R4 by done.
    apply wp_bind. eapply call_delete; [exact R4|by rewrite lookup_insert|]. intros s5 F5 R5. rewrite delete_insert in R5 by by rewrite ?lookup_insert_ne.
    apply wp_bind. eapply call_delete; [exact R5|by rewrite lookup_insert|]. intros s6 F6 R6. rewrite delete_insert in R6 by by rewrite ?lookup_insert_ne.
    apply wp_ret, HQ; [lia|]. split; [done|]. right. destruct E3 as [E3|E3]; [left|right; lia]. rewrite later_cons. toolong.
Qed.

Lemma ToJSON_ok es s a : srep s a -> Forall entry_ok es ->
  wp (Map_ToJSON (Some es)) s (fun r s' => match r with
    | Some h => a !! h = None /\ srep s' (<[h := object_text es]> a) /\ Forall (fun m => ~ entry_wide m) es
    | None => srep s' a /\ (Exists entry_wide es \/ ~ fits (length (object_text es)) \/ fails s < fails s')
    end).
Proof.
  intros R Hes. unfold Map_ToJSON. apply wp_bind.
  assert (Hone : forall c, (0 < c <= 255)%Z -> string_ok [c]). { intros c Hc. split; [by apply Forall_singleton|unfold fits, UINT64_MAX; simpl; lia]. }
  eapply call_new; [exact R|by apply Hone|]. intros [h|] s1 F1 E1.
  2:{ destruct E1 as [R1 E1]. apply wp_ret. split; [done|]. destruct E1 as [E1|E1]; [right; left|right; right; lia]. unfold object_text. toolong. }
  destruct E1 as [Hh R1]. apply wp_bind. eapply loop_ok; [exact R1|done|done|]. intros [] s2 F2 [R2 E2].
  2:{ apply wp_ret. split; [done|]. destruct E2 as [E2|[E2|E2]]; [by left|right; left|right; right; lia]. unfold object_text. unfold later in E2. toolong. }
  apply wp_bind. eapply call_concat; [exact R2|by rewrite lookup_insert|by apply Hone|]. intros r s3 F3 [[-> R3]|(->&R3&E3)].
  - rewrite decide_True by done. apply wp_ret. split; [done|]. split; [|done]. rewrite insert_insert in R3. unfold object_text. by rewrite app_assoc.
  - rewrite decide_False by done. apply wp_bind. eapply call_delete; [exact R3|by rewrite lookup_insert|]. intros s4 F4 R4. rewrite delete_insert in R4 by done.
    apply wp_ret. split; [done|]. right. destruct E3 as [E3|E3]; [left|right; lia]. unfold object_text. unfold later in E3. toolong.
Qed.

(** Reading back. *)
Lemma read_char c l : (0 < c < 128)%Z -> read_string (json_char c ++ l) = match read_string l with Some (t, rest) => Some (c :: t, rest) | None => None end.
Proof.
  intros Hc. unfold json_char. destruct (decide (c < 32)%Z) as [H1|H1].
  - assert (hex_digit (nth (Z.to_nat (c / 16)) HEX 0%Z) = Some (c / 16)%Z /\ hex_digit (nth (Z.to_nat (c mod 16)) HEX 0%Z) = Some (c mod 16)%Z) as [E1 E2].
    { assert (0 <= c < 32)%Z as H by lia. clear -H. eapply bool_decide_eq_true_1.
      refine (Base64Proofs.range_forall 32 (fun c => bool_decide (hex_digit (nth (Z.to_nat (c / 16)) HEX 0%Z) = Some (c / 16)%Z /\ hex_digit (nth (Z.to_nat (c mod 16)) HEX 0%Z) = Some (c mod 16)%Z)) _ c _); [vm_compute; reflexivity|lia]. }
    set (h1 := nth (Z.to_nat (c / 16)) HEX 0%Z) in *. set (h2 := nth (Z.to_nat (c mod 16)) HEX 0%Z) in *. cbn [app read_string].
    rewrite (decide_False (P := (92 = 34)%Z)), (decide_False (P := (92 < 32)%Z)), (decide_True (P := (92 = 92)%Z)), (decide_True (P := (117 = 117)%Z)) by (done || lia).
    change (hex_digit 48) with (Some 0%Z). rewrite E1, E2. destruct (read_string l) as [[]|]; [|done]. do 3 f_equal. pose proof (Z.div_mod c 16). lia.
  - destruct (decide (c ∈ [34; 92; 47]%Z)) as [H2|H2].
    + assert (escape c = Some c) as E by (unfold escape; by rewrite decide_True).
      assert (c <> 117)%Z. { intros ->. rewrite !elem_of_cons, elem_of_nil in H2. lia. }
      cbn [app read_string]. rewrite (decide_False (P := (92 = 34)%Z)), (decide_False (P := (92 < 32)%Z)), (decide_True (P := (92 = 92)%Z)), decide_False by (done || lia).
      rewrite E. by destruct (read_string l) as [[]|].
    + rewrite !elem_of_cons, elem_of_nil in H2. cbn [app read_string]. rewrite (decide_False (P := (c = 34)%Z)), (decide_False (P := (c < 32)%Z)), (decide_False (P := (c = 92)%Z)) by tauto.
      done.
Qed.
Lemma expect_eq c l : expect c (c :: l) = Some l.
Proof. simpl. by rewrite decide_True. Qed.
Lemma read_json l rest : Forall (fun c => 0 < c < 128)%Z l -> read_string (concat (json_char <$> l) ++ [34%Z] ++ rest) = Some (l, rest).
Proof.
  induction 1 as [|c l Hc _ IH]; [done|]. rewrite fmap_cons. cbn [concat]. rewrite <-app_assoc, read_char by done. by rewrite IH.
Qed.
Notation ascii := (Forall (fun c => 0 < c < 128)%Z).
Lemma read_member_ok m rest : ascii m.1 -> ascii m.2 -> read_member (member_text m ++ rest) = Some (m, rest).
Proof.
  intros H1 H2. unfold member_text, json, read_member. rewrite <-!app_assoc. cbn [app]. rewrite expect_eq. cbn [mbind option_bind].
  change (34%Z :: 58%Z :: ?x) with ([34%Z] ++ 58%Z :: x). rewrite read_json by done. cbn [mbind option_bind]. rewrite expect_eq. cbn [mbind option_bind]. rewrite expect_eq. cbn [mbind option_bind].
  change (34%Z :: rest) with ([34%Z] ++ rest). rewrite read_json by done. by destruct m.
Qed.
Lemma read_members_ok es : forall n m, length es < n -> Forall (fun m => ascii m.1 /\ ascii m.2) (m :: es) -> read_members n (members_text (m :: es) ++ [125%Z]) = Some (m :: es).
Proof.
  induction es as [|m' es IH]; intros [|n] m Hn Hf; try (simpl in Hn; lia); inversion Hf as [|? ? [H1 H2] Hf']; subst.
  - cbn [members_text read_members]. rewrite read_member_ok by done. done.
  - change (members_text (m :: m' :: es)) with (member_text m ++ [44%Z] ++ members_text (m' :: es)). rewrite <-!app_assoc. cbn [read_members].
    rewrite read_member_ok by done. cbn [mbind option_bind app]. rewrite IH; [done|simpl in Hn; lia|done].
Qed.
Lemma members_length m es : length es < length (members_text (m :: es)).
Proof.
  revert m. induction es as [|m' es IH]; intros m.
  - simpl. unfold member_text. rewrite !app_length. simpl. lia.
  - change (members_text (m :: m' :: es)) with (member_text m ++ [44%Z] ++ members_text (m' :: es)). rewrite !app_length. specialize (IH m'). simpl length at 1 3. lia.
Qed.
Lemma object_ok es : Forall (fun m => ascii m.1 /\ ascii m.2) es -> json_object (object_text es) = Some es.
Proof.
  intros H. destruct es as [|m es]; [done|]. unfold object_text. cbn [app]. unfold json_object.
  assert (exists x y l, members_text (m :: es) ++ [125%Z] = x :: y :: l) as (x&y&l&E).
  { pose proof (members_length m es). destruct (members_text (m :: es)) as [|x [|y l]] eqn:E; [simpl in *; lia|by eexists _, _, _|by eexists _, _, _]. }
  pose proof (read_members_ok es (length (members_text (m :: es) ++ [125%Z])) m) as HR. rewrite E in HR |- *.
  assert (read_members (length (x :: y :: l)) (x :: y :: l) = Some (m :: es)) as ->.
  { apply HR; [|done]. rewrite <-E, app_length. pose proof (members_length m es). lia. }
  destruct x as [|p|p]; try done. repeat (destruct p as [p|p|]; try done).
Qed.
Lemma json_range l : ascii l -> Forall (fun c => 32 <= c < 128)%Z (json l).
Proof.
  intros Hpos. apply Forall_app. split; [by repeat constructor|]. apply Forall_app. split; [|by repeat constructor].
  assert (forall i, i < 16 -> (32 <= nth i HEX 0 < 128)%Z) as Hhex. { intros i Hi. do 16 (destruct i; [simpl; lia|]). lia. }
  induction Hpos as [|c l Hc _ IH]; [constructor|]. rewrite fmap_cons. cbn [concat]. apply Forall_app. split; [|done]. unfold json_char.
  case_decide; [|case_decide]; repeat constructor; try lia; apply Hhex; pose proof (Z.div_pos c 16); pose proof (Z.div_lt_upper_bound c 16 16); pose proof (Z.mod_pos_bound c 16); lia.
Qed.
Lemma object_range es : Forall (fun m => ascii m.1 /\ ascii m.2) es -> Forall (fun c => 32 <= c < 128)%Z (object_text es).
Proof.
  intros H. apply Forall_app. split; [by repeat constructor|]. apply Forall_app. split; [|by repeat constructor].
  induction H as [|m es [H1 H2] H IH]; [constructor|].
  assert (Forall (fun c => 32 <= c < 128)%Z (member_text m)). { apply Forall_app. split; [by apply json_range|]. apply Forall_app. split; [by repeat constructor|by apply json_range]. }
  destruct es; [done|]. change (members_text (m :: p :: es)) with (member_text m ++ [44%Z] ++ members_text (p :: es)). apply Forall_app. split; [done|]. apply Forall_app. split; [by repeat constructor|done].
Qed.
