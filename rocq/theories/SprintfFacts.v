(** Lemmas about Sprintf.v. *)
From Verif Require Import Common Block BlockFacts CMem CMemFacts CStr CStrFacts Sprintf.
Local Open Scope cmonad_scope.

Lemma chars0_str l rest : zfree l -> chars0 (str_block l rest) = Some l.
Proof. unfold str_block. induction 1 as [|c l Hc _ IH]; simpl; [done|]. rewrite decide_False by done. unfold bytes_block in *. by rewrite IH. Qed.

(** [last_pos ch l r]: r is the position of the last ch in l. *)
Definition last_pos (ch : Z) (l : bytes) (r : option nat) : Prop :=
  match r with
  | None => ch ∉ l
  | Some i => exists l1 l2, l = l1 ++ ch :: l2 /\ length l1 = i /\ ch ∉ l2
  end.
Lemma last_of_str ch l rest : forall i found, zfree l ->
  exists r, last_of ch i found (str_block l rest) = Some r /\
    ((r = found /\ ch ∉ l) \/ exists k, r = Some (i + k) /\ last_pos ch l (Some k)).
Proof.
  unfold str_block. induction l as [|c l IH]; intros i found Hz; simpl.
  - exists found. split; [done|]. left. split; [done|]. apply not_elem_of_nil.
  - apply Forall_cons in Hz as [Hc Hz]. rewrite decide_False by done. unfold bytes_block in *.
    destruct (IH (S i) (if decide (c = ch) then Some i else found) Hz) as (r&Hr&Hcase). exists r. split; [done|].
    destruct Hcase as [[-> Hn]|(k&->&l1&l2&->&Hk&Hn)].
    + destruct (decide (c = ch)) as [->|Hne].
      * right. exists 0. split; [f_equal; lia|]. by exists [], l.
      * left. split; [done|]. rewrite elem_of_cons. intros [?|?]; [by subst|done].
    + right. exists (S k). split; [f_equal; lia|]. exists (c :: l1), l2. simpl. auto.
Qed.

Section facts.
Context {O : Type}.
Implicit Types s : st O.
Lemma wp_fmt_s s c l (Q : bytes -> st O -> Prop) : src_is s c l -> Q l s -> wp (fmt_s c) s Q.
Proof. intros H HQ. apply wp_bind. eapply wp_cells; [done|]. intros rest. rewrite chars0_str by apply H. by apply wp_ret. Qed.
Lemma wp_fmt_prec_s s prec c l (Q : bytes -> st O -> Prop) : src_is s c l -> Q (if decide (prec < 0)%Z then l else take (Z.to_nat prec) l) s -> wp (fmt_prec_s prec c) s Q.
Proof. intros H HQ. apply wp_bind. eapply wp_fmt_s; [done|]. by apply wp_ret. Qed.
Lemma wp_strrchr s c ch l (Q : option nat -> st O -> Prop) : src_is s c l -> (forall r, last_pos ch l r -> Q r s) -> wp (strrchr c ch) s Q.
Proof.
  intros H HQ. apply wp_bind. eapply wp_cells; [done|]. intros rest. destruct (last_of_str ch l rest 0 None) as (r&->&Hr); [apply H|].
  apply wp_ret, HQ. destruct Hr as [[-> ?]|(k&->&?)]; done.
Qed.
Lemma wp_sprintf_char t s (Q : ptr -> st O -> Prop) : (forall r s', new_string t s r s' -> Q r s') -> wp (sprintf_char t) s Q.
Proof.
  intros HQ. unfold sprintf_char. destruct (decide _) as [Hl|Hl].
  { apply wp_ret, HQ. split; [done|]. auto. }
  apply wp_bind. apply wp_malloc.
  - intros p o Hp. apply wp_bind. eapply wp_memcpy_from.
    + simpl. by rewrite lookup_insert.
    + by rewrite app_length.
    + unfold fresh_block. rewrite replicate_length. done.
    + apply wp_ret, HQ. split; [done|]. simpl. split; [done|]. split; [|done]. rewrite insert_insert. f_equal.
      rewrite firstn_all2 by (rewrite app_length; simpl; lia). unfold fresh_block. rewrite drop_ge by (rewrite replicate_length; simpl; lia).
      by rewrite app_nil_r.
  - intros o. apply wp_ret, HQ. split; [done|]. simpl. split; [done|]. left. lia.
Qed.
Lemma wp_sprintf_char_ok t s (Q : ptr -> st O -> Prop) : oracle s = [] -> (Z.of_nat (length t) <= INT32_MAX)%Z ->
  (forall p s', new_string t s (Some p) s' -> Q (Some p) s') -> wp (sprintf_char t) s Q.
Proof.
  intros Ho Hl HQ. assert (wp (sprintf_char t) s (fun r s' => new_string t s r s' /\ (fails s' = fails s))) as H.
  { unfold sprintf_char. rewrite decide_False by lia. apply wp_bind. unfold wp at 1, malloc, bind, alloc_ok. rewrite Ho. simpl.
    apply wp_bind. eapply wp_memcpy_from.
    + simpl. by rewrite lookup_insert.
    + by rewrite app_length.
    + unfold fresh_block. rewrite replicate_length. done.
    + apply wp_ret. split; [|done]. split; [done|]. simpl. split; [apply not_elem_of_dom, is_fresh|]. split; [|done]. rewrite insert_insert. f_equal.
      rewrite firstn_all2 by (rewrite app_length; simpl; lia). unfold fresh_block. rewrite drop_ge by (rewrite replicate_length; simpl; lia).
      by rewrite app_nil_r. }
  eapply wp_mono; [exact H|]. intros [p|] s' [Hn Hf]; [by apply HQ|]. destruct Hn as [_ [_ [?|?]]]; lia.
Qed.
End facts.
