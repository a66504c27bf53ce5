From Verif Require Import Common Block BlockFacts CMem CMemFacts CStr.
Local Open Scope cmonad_scope.

(** Strings: no 0 inside. *)
Definition zfree (l : bytes) : Prop := Forall (fun c => c <> 0%Z) l.
Definition str_block (l : bytes) (rest : block) : block := bytes_block l ++ Some 0%Z :: rest.

Lemma str_block_length l rest : length (str_block l rest) = length l + S (length rest).
Proof. unfold str_block, bytes_block. rewrite app_length, fmap_length. done. Qed.
Lemma str_block_eq l rest : str_block l rest = bytes_block (l ++ [0%Z]) ++ rest.
Proof. unfold str_block, bytes_block. rewrite fmap_app, <-app_assoc. done. Qed.
Lemma bytes_block_app l l' : bytes_block (l ++ l') = bytes_block l ++ bytes_block l'.
Proof. apply fmap_app. Qed.

Section facts.
Context {O : Type}.
Implicit Types s : st O.

Definition src_is (s : st O) (c : csrc) (l : bytes) : Prop :=
  zfree l /\ match c with
             | CExt arr => exists rest, arr = l ++ 0%Z :: rest
             | CPtr p => exists rest, mem s !! p = Some (str_block l rest)
             end.
Lemma src_cells s c l : src_is s c l -> exists rest, cells c s = Done (str_block l rest, s).
Proof.
  intros [_ H]. destruct c as [arr|p]; simpl; destruct H as [rest H].
  - subst. exists (bytes_block rest). unfold str_block. by rewrite bytes_block_app.
  - rewrite H. eauto.
Qed.
Lemma scan0_str l rest : zfree l -> scan0 (str_block l rest) = Some (length l).
Proof.
  unfold str_block. induction 1 as [|c l Hc _ IH]; simpl; [done|]. rewrite decide_False by done. unfold bytes_block in *. by rewrite IH.
Qed.
Lemma wp_cells s c l (Q : block -> st O -> Prop) : src_is s c l -> (forall rest, Q (str_block l rest) s) -> wp (cells c) s Q.
Proof. intros H HQ. destruct (src_cells _ _ _ H) as [rest E]. unfold wp. rewrite E. auto. Qed.
Lemma wp_strlen s c l (Q : nat -> st O -> Prop) : src_is s c l -> Q (length l) s -> wp (strlen c) s Q.
Proof. intros H HQ. apply wp_bind. eapply wp_cells; [done|]. intros rest. rewrite scan0_str by apply H. by apply wp_ret. Qed.
Lemma str_block_lookup l rest i v : l !! i = Some v -> str_block l rest !! i = Some (Some v).
Proof.
  intros H. unfold str_block, bytes_block. rewrite lookup_app_l by (rewrite fmap_length; by eapply lookup_lt_Some).
  by rewrite list_lookup_fmap, H.
Qed.
Lemma wp_char_at s c l i v (Q : Z -> st O -> Prop) : src_is s c l -> l !! i = Some v -> Q v s -> wp (char_at c i) s Q.
Proof. intros H Hi HQ. apply wp_bind. eapply wp_cells; [done|]. intros rest. rewrite (str_block_lookup _ _ _ _ Hi). by apply wp_ret. Qed.
(** Copying the first n characters of a string (the terminator counts as one). *)
Lemma wp_strcpy_n d bd doff c l n s (Q : unit -> st O -> Prop) :
  mem s !! d = Some bd -> src_is s c l -> c <> CPtr d -> n <= length l + 1 -> doff + n <= length bd ->
  Q tt (St (<[d := take doff bd ++ bytes_block (take n (l ++ [0%Z])) ++ drop (doff + n) bd]> (mem s)) (objs s) (oracle s) (fails s)) ->
  wp (strcpy_n (Some d) doff c 0 n) s Q.
Proof.
  intros Hd [Hz Hc] Hne Hn Hl HQ. destruct c as [arr|p]; unfold strcpy_n; destruct Hc as [rest Hc].
  - rewrite drop_0. subst. eapply wp_memcpy_from; [done|rewrite app_length; simpl; lia|done|].
    assert (take n (l ++ 0%Z :: rest) = take n (l ++ [0%Z])) as ->; [|done].
    change (l ++ 0%Z :: rest) with (l ++ [0%Z] ++ rest). rewrite app_assoc. apply take_app_le. rewrite app_length. simpl. lia.
  - eapply wp_memcpy; [congruence|done|exact Hc|done|rewrite str_block_length; lia|].
    assert (take n (drop 0 (str_block l rest)) = bytes_block (take n (l ++ [0%Z]))) as ->; [|done].
    rewrite drop_0, str_block_eq. unfold bytes_block. rewrite fmap_take. apply take_app_le. rewrite fmap_length, app_length. simpl. lia.
Qed.
Lemma wp_set_char d w x r v i s (Q : unit -> st O -> Prop) :
  mem s !! d = Some (w ++ x :: r) -> i = length w ->
  Q tt (St (<[d := w ++ Some v :: r]> (mem s)) (objs s) (oracle s) (fails s)) -> wp (set_char (Some d) i v) s Q.
Proof.
  intros Hd -> HQ. eapply wp_store; [done|rewrite app_length; simpl; lia|]. cbn [length].
  rewrite take_app_alt by done. rewrite drop_app_ge by lia. replace (length w + 1 - length w) with 1 by lia. done.
Qed.
(** A string stays readable when other blocks change. *)
Lemma src_frame s s' c l : src_is s c l -> (forall p, c = CPtr p -> mem s' !! p = mem s !! p) -> src_is s' c l.
Proof. intros [Hz H] Hf. split; [done|]. destruct c; [done|]. by rewrite (Hf p). Qed.
End facts.
