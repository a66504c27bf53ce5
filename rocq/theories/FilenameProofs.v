(** Proofs about FilenameModel.v. *)
From Verif Require Import Common Block CMem CMemFacts CStr CStrFacts Sprintf SprintfFacts FilenameModel FilenameSpec.
Local Open Scope cmonad_scope.

Lemma split_last ch l r : last_pos ch l r -> exists dir name, splits [ch] l dir name /\
  match r with None => dir = [] | Some i => length dir = S i end.
Proof.
  destruct r as [i|]; simpl.
  - intros (l1&l2&->&<-&Hn). exists (l1 ++ [ch]), l2. split; [|rewrite app_length; simpl; lia]. split; [by rewrite <-app_assoc|]. split.
    + right. exists l1, ch. split; [done|]. set_solver.
    + apply Forall_forall. intros c Hc. set_solver.
  - intros Hn. exists [], l. split; [|done]. split; [done|]. split; [auto|]. apply Forall_forall. intros c Hc. set_solver.
Qed.

Lemma append_ok f x lf lx s : src_is s f lf -> src_is s x lx -> (Z.of_nat (length lf) <= INT32_MAX)%Z ->
  exists dir name name' r s', splits backslash lf dir name /\ with_suffix name lx name' /\
    filename_append_suffix (Some f) (Some x) s = Done (r, s') /\ new_string (dir ++ name') s r s'.
Proof.
  intros Hf Hx Hlen.
  assert (wp (filename_append_suffix (Some f) (Some x)) s (fun r s' => exists dir name name', splits backslash lf dir name /\ with_suffix name lx name' /\ new_string (dir ++ name') s r s')) as H.
  2: { apply wp_done in H as (r&s'&?&dir&name&name'&?&?&?). exists dir, name, name', r, s'. auto. }
  apply wp_bind. eapply wp_strrchr; [done|]. intros dot Hdot. apply wp_bind. eapply wp_strrchr; [done|]. intros bs Hbs.
  destruct (split_last _ _ _ Hbs) as (dir&name&Hs&Hd). pose proof Hs as (->&Hdir&Hname).
  assert (46%Z ∉ name -> wp (let* t1 := fmt_s f in let* t2 := fmt_s x in sprintf_char (t1 ++ t2)) s
    (fun r s' => exists dir0 name0 name', splits backslash (dir ++ name) dir0 name0 /\ with_suffix name0 lx name' /\ new_string (dir0 ++ name') s r s')) as Happ.
  { intros Hn. apply wp_bind. eapply wp_fmt_s; [done|]. apply wp_bind. eapply wp_fmt_s; [done|]. apply wp_sprintf_char. intros r s' Hnew.
    exists dir, name, (name ++ lx). split; [done|]. split; [by right|]. rewrite <-app_assoc in Hnew. done. }
  destruct dot as [d|].
  - destruct Hdot as (l1&l2&E&Hl1&Hn2). unfold chr_dot in *.
    assert ((match bs with Some b => bool_decide (d < b) | None => false end) = true -> 46%Z ∉ name) as Hcase1.
    { destruct bs as [b|]; [|done]. intros Hlt%bool_decide_eq_true. simpl in Hd.
      assert (name = drop (length dir) (l1 ++ 46%Z :: l2)) as -> by (by rewrite <-E, drop_app). rewrite drop_app_ge by lia.
      replace (length dir - length l1) with (S (length dir - length l1 - 1)) by lia. simpl. intros Hin. apply Hn2. apply (elem_of_list_lookup_1) in Hin as [k Hk]. rewrite lookup_drop in Hk. by eapply elem_of_list_lookup_2. }
    assert ((match bs with Some b => bool_decide (d < b) | None => false end) = false -> length dir <= d) as Hcase2.
    { destruct bs as [b|]; [|intros _; subst dir; simpl; lia]. rewrite bool_decide_eq_false. simpl in Hd. intros Hge.
      destruct (decide (d = b)) as [->|]; [|lia]. exfalso. destruct Hbs as (k1&k2&E2&Hk1&_). rewrite E2 in E.
      assert ((k1 ++ chr_backslash :: k2) !! b = (l1 ++ 46%Z :: l2) !! b) as H by (by rewrite E). rewrite !list_lookup_middle in H by done. done. }
    destruct (match bs with Some b => bool_decide (d < b) | None => false end).
    + apply Happ, Hcase1; done.
    + clear Hcase1 Happ. specialize (Hcase2 eq_refl). apply wp_bind. eapply wp_fmt_prec_s; [done|].
      apply wp_bind. eapply wp_fmt_s; [done|]. apply wp_bind. eapply wp_fmt_s; [done|]. apply wp_sprintf_char. intros r s' Hnew.
      set (base := drop (length dir) l1). assert (l1 = dir ++ base) as El1.
      { rewrite <- (take_drop (length dir) l1). unfold base. f_equal. transitivity (take (length dir) (l1 ++ 46%Z :: l2)); [|by rewrite <-E, take_app].
        by rewrite take_app_le by lia. }
      rewrite El1, <-app_assoc in E. apply app_inv_head in E. exists dir, name, (base ++ lx ++ 46%Z :: l2). split; [done|]. split; [left; exists base, l2; auto|].
      assert (dir ++ base ++ 46%Z :: l2 = l1 ++ 46%Z :: l2) as Etot by (by rewrite El1, <-app_assoc).
      rewrite E, Etot in Hnew. rewrite drop_app_alt in Hnew by done.
      assert (Z.of_nat d < 2 ^ 31)%Z as Hsmall. { rewrite app_length, E, app_length in Hlen. rewrite El1, app_length in Hl1. unfold INT32_MAX in Hlen. lia. }
      assert (i32 (Z.of_nat d) = Z.of_nat d) as Ei.
      { unfold i32, wrap_signed. rewrite Z.mod_small; [lia|]. split; [lia|]. change (2 ^ 32)%Z with (2 ^ (32 - 1) + 2 ^ (32 - 1))%Z. change (32 - 1)%Z with 31%Z. lia. }
      rewrite Ei in Hnew. rewrite decide_False in Hnew by lia. rewrite Nat2Z.id in Hnew. rewrite take_app_alt in Hnew by done.
      rewrite El1, <-app_assoc in Hnew. done.
  - apply Happ. simpl in Hdot. intros Hin. apply Hdot. unfold chr_dot. set_solver.
Qed.

Lemma last_pos_unique ch l r r' : last_pos ch l r -> last_pos ch l r' -> r = r'.
Proof.
  assert (forall r l1 l2, last_pos ch (l1 ++ ch :: l2) r -> ch ∉ l2 -> r = Some (length l1)) as H.
  { intros r0 l1 l2 Hr Hn. destruct r0 as [i|]; simpl in Hr; [|exfalso; apply Hr; set_solver]. destruct Hr as (k1&k2&E&<-&Hk). f_equal.
    destruct (Nat.lt_trichotomy (length k1) (length l1)) as [Hlt|[|Hgt]]; [|done|].
    - exfalso. apply Hk. assert ((l1 ++ ch :: l2) !! length l1 = Some ch) as Hl by (by rewrite list_lookup_middle).
      rewrite E, lookup_app_r in Hl by lia. replace (length l1 - length k1) with (S (length l1 - length k1 - 1)) in Hl by lia. simpl in Hl. by eapply elem_of_list_lookup_2.
    - exfalso. apply Hn. assert ((k1 ++ ch :: k2) !! length k1 = Some ch) as Hl by (by rewrite list_lookup_middle).
      rewrite <-E, lookup_app_r in Hl by lia. replace (length k1 - length l1) with (S (length k1 - length l1 - 1)) in Hl by lia. simpl in Hl. by eapply elem_of_list_lookup_2. }
  intros Hr Hr'. destruct r as [i|].
  - destruct Hr as (l1&l2&->&<-&Hn). symmetry. by eapply H.
  - destruct r' as [j|]; [|done]. destruct Hr' as (l1&l2&->&<-&Hn). by eapply H.
Qed.
(** A name of 4 GiB before its extension: (int)(2^32) is 0, so all of it is left out. *)
Lemma long_name_lost : exists lf s r, zfree lf /\ 92%Z ∉ lf /\ (4294967296 < Z.of_nat (length lf))%Z /\
  filename_append_suffix (Some (CExt (lf ++ [0%Z]))) (Some (CExt [120; 0]%Z)) (St ∅ ∅ [] 0) = Done (Some r, s) /\ mem s !! r = Some (bytes_block [120; 46; 0]%Z).
Proof.
  assert (exists n, Z.of_nat n = 4294967296%Z) as [n En]. { exists (Z.to_nat 4294967296). apply Z2Nat.id. lia. }
  set (lf := replicate n 97%Z ++ [46%Z]). exists lf.
  assert (zfree lf) as Hz. { apply Forall_app. split; [by apply Forall_replicate|]. by constructor. }
  assert (src_is (O := unit) (St ∅ ∅ [] 0) (CExt (lf ++ [0%Z])) lf) as Hf by (split; [done|]; by exists []).
  assert (src_is (O := unit) (St ∅ ∅ [] 0) (CExt [120; 0]%Z) [120%Z]) as Hx by (split; [by constructor|]; by exists []).
  assert (forall c, c <> 97%Z -> c <> 46%Z -> c ∉ lf) as Hnot.
  { intros c H1 H2. unfold lf. rewrite elem_of_app, elem_of_list_singleton. intros [H|H]; [|done]. apply elem_of_replicate in H as [H _]. done. }
  assert (wp (filename_append_suffix (Some (CExt (lf ++ [0%Z]))) (Some (CExt [120; 0]%Z))) (St ∅ ∅ [] 0) (fun r s => new_string [120; 46]%Z (St ∅ ∅ [] 0) r s /\ fails s = 0)) as H.
  { apply wp_bind. eapply wp_strrchr; [done|]. intros dot Hdot. assert (dot = Some n) as ->.
    { eapply last_pos_unique; [done|]. exists (replicate n 97%Z), []. split; [done|]. split; [apply replicate_length|]. apply not_elem_of_nil. }
    apply wp_bind. eapply wp_strrchr; [done|]. intros bs Hbs. assert (bs = None) as ->. { eapply last_pos_unique; [done|]. simpl. by apply Hnot. }
    apply wp_bind. eapply wp_fmt_prec_s; [done|]. rewrite En. change (i32 4294967296) with 0%Z. rewrite decide_False by lia. change (take (Z.to_nat 0) lf) with (@nil Z).
    apply wp_bind. eapply wp_fmt_s; [done|]. apply wp_bind. eapply wp_fmt_s; [done|]. unfold lf. rewrite drop_app_alt by (by rewrite replicate_length). simpl.
    apply wp_sprintf_char_ok; [done|unfold INT32_MAX; simpl; lia|]. intros p s' H. split; [done|]. apply H. }
  unfold wp in H. destruct (filename_append_suffix _ _ _) as [[r s]| |] eqn:E; try done. destruct H as [[Ho Hr] Hfl]. destruct r as [r|].
  - exists s, r. split; [done|]. split; [by apply Hnot|]. split; [unfold lf; rewrite app_length, replicate_length; simpl; lia|]. split; [done|].
    destruct Hr as (_&->&_). by rewrite lookup_insert.
  - destruct Hr as [_ [Hlt|Hlt]]; [simpl in Hlt; lia|]. unfold INT32_MAX in Hlt. simpl in Hlt. lia.
Qed.
