(** Proofs about enumerating folders. *)
From Verif Require Import Common FolderModel FolderSpec.
Local Open Scope Z_scope.

Section proofs.
Context (w : world).
Lemma loop_run d e es ends h : let '(err, h') := loop (call w) d e es ends h in
  exists done_ todo a b, e :: es = done_ ++ todo /\ run w d h done_ (a, b) h' /\ ((a <> 0 /\ negb err = false) \/ (a = 0 /\ b = false /\ negb err = true) \/ (a = 0 /\ b = true /\ todo = [] /\ negb err = ends)).
Proof.
  revert e h. induction es as [|e' es IH]; intros e h; cbn [loop]; unfold bind, call; destruct (answer w h d e) as [a b] eqn:Ea; destruct (Z.eqb_spec a 0) as [->|Hne]; cbn [negb].
  - destruct b; cbn [negb].
    + cbn. exists [e], [], 0, true. rewrite negb_involutive. split_and!; [done| |by auto 10]. rewrite <-Ea. constructor.
    + cbn. exists [e], [], 0, false. split_and!; [done| |by auto 10]. rewrite <-Ea. constructor.
  - cbn. exists [e], [], a, b. split_and!; [done| |by auto 10]. rewrite <-Ea. constructor.
  - destruct b; cbn [negb].
    + specialize (IH e' (Act d e :: h)). unfold call in IH. destruct (loop _ d e' es ends _) as [err h']. destruct IH as (l1&l2&a&b&E&Hr&Ho). exists (e :: l1), l2, a, b. split_and!; [by rewrite E| |done]. by constructor.
    + cbn. exists [e], (e' :: es), 0, false. split_and!; [done| |by auto 10]. rewrite <-Ea. constructor.
  - cbn. exists [e], (e' :: es), a, b. split_and!; [done| |by auto 10]. rewrite <-Ea. constructor.
Qed.
Lemma folder_walk d h : let '(r, h') := for_each_in_folder w (Some d) (Some (call w)) h in walk w d h (r =? 0) h'.
Proof.
  unfold for_each_in_folder, bind, sprintf_char. destruct (memory w h) eqn:Em; [|by constructor]. destruct (dir w (d ++ [92; 42])) as [| |e es ends] eqn:Ed; cbn.
  - by constructor.
  - by constructor.
  - pose proof (loop_run d e es ends (Open (S (length h)) (d ++ [92; 42]) :: Alloc (length h) (d ++ [92; 42]) :: h)) as Hl. destruct (loop _ _ _ _ _ _) as [err h']. destruct Hl as (l1&l2&a&b&E&Hr&Ho). cbn.
    eapply walk_entries; eauto. by destruct err.
Qed.
Lemma on_each_sub d e h : let '((r, b), h') := on_subfolder_folder w (call w) d e h in b = true /\
  if decide (sub_folder e) then
    (memory w h = false /\ r <> 0 /\ h' = h) \/
    (memory w h = true /\ exists n h1, walk w (d ++ [92] ++ name e) (Alloc n (d ++ [92] ++ name e) :: h) (r =? 0) h1 /\ h' = Free n :: h1)
  else r = 0 /\ h' = h.
Proof.
  unfold on_subfolder_folder. destruct (is_dir e) eqn:Ei; cbn [negb].
  2: { destruct (decide _) as [[? _]|]; [congruence|done]. }
  destruct (bool_decide (name e = [46]) || bool_decide (name e = [46; 46])) eqn:En.
  - destruct (decide _) as [(_&H1&H2)|]; [|done]. apply orb_prop in En as [En|En]; apply bool_decide_eq_true in En; done.
  - apply orb_false_elim in En as [H1 H2]. apply bool_decide_eq_false in H1. apply bool_decide_eq_false in H2. destruct (decide _) as [_|Hn]; [|by destruct Hn].
    unfold bind, sprintf_char. destruct (memory w h) eqn:Em; [|by split; [done|left]]. pose proof (folder_walk (d ++ [92] ++ name e) (Alloc (length h) (d ++ [92] ++ name e) :: h)) as Hf.
    destruct (for_each_in_folder w _ _ _) as [r h']. cbn. split; [done|]. right. split; [done|]. exists (length h), h'. split; [|done]. destruct (r =? 0); exact Hf.
Qed.
Lemma loop_walks d e es ends h : let '(err, h') := loop (on_subfolder_folder w (call w)) d e es ends h in
  exists ok, walks w d h (filter sub_folder (e :: es)) ok h' /\ negb err = ok && ends.
Proof.
  revert e h. induction es as [|e' es IH]; intros e h; cbn [loop]; unfold bind; pose proof (on_each_sub d e h) as Hs; destruct (on_subfolder_folder w (call w) d e h) as [[r b] h1]; destruct Hs as [-> Hs]; cbn [negb]; rewrite filter_cons.
  - destruct (decide (sub_folder e)) as [Hd|Hd].
    + destruct Hs as [(Em&Hr&->)|(Em&n&h2&Hw&->)].
      * destruct (Z.eqb_spec r 0); [done|]. cbn. exists false. split; [by constructor|done].
      * destruct (Z.eqb_spec r 0) as [->|Hne]; cbn in *; [exists true|exists false]; (split; [|by rewrite ?negb_involutive]); [|by econstructor]. eapply walks_next; eauto. constructor.
    + destruct Hs as [-> ->]. cbn. exists true. split; [constructor|by rewrite negb_involutive].
  - destruct (decide (sub_folder e)) as [Hd|Hd].
    + destruct Hs as [(Em&Hr&->)|(Em&n&h2&Hw&->)].
      * destruct (Z.eqb_spec r 0); [done|]. cbn. exists false. split; [by constructor|done].
      * destruct (Z.eqb_spec r 0) as [->|Hne]; cbn [negb]; cbn in Hw; [|exists false; split; [by econstructor|done]].
        specialize (IH e' (Free n :: h2)). destruct (loop _ _ e' _ _ _) as [err h3]. destruct IH as (ok&Hw'&Ho). exists ok. split; [|done]. eapply walks_next; eauto.
    + destruct Hs as [-> ->]. cbn [Z.eqb negb]. apply IH.
Qed.
Lemma closed_one_alloc n s : closed [Free n; Alloc n s].
Proof. apply (closed_alloc n s []). constructor. Qed.
(** What the loop adds to the history is closed when what the function adds is. *)
Definition adds (h h' : list event) : Prop := exists x, h' = x ++ h /\ closed x.
Lemma adds_refl h : adds h h.
Proof. exists []. split; [done|constructor]. Qed.
Lemma adds_trans h1 h2 h3 : adds h1 h2 -> adds h2 h3 -> adds h1 h3.
Proof. intros (x&->&Hx) (y&->&Hy). exists (y ++ x). split; [by rewrite app_assoc|by constructor]. Qed.
Lemma adds_alloc n s h h' : adds (Alloc n s :: h) h' -> adds h (Free n :: h').
Proof. intros (x&->&Hx). exists (Free n :: x ++ [Alloc n s]). split; [cbn; by rewrite <-app_assoc|by constructor]. Qed.
Lemma adds_open n s h h' : adds (Open n s :: h) h' -> adds h (Close n :: h').
Proof. intros (x&->&Hx). exists (Close n :: x ++ [Open n s]). split; [cbn; by rewrite <-app_assoc|by constructor]. Qed.
Lemma loop_adds f d e es ends h : (forall e h, adds h (f d e h).2) -> adds h (loop f d e es ends h).2.
Proof.
  intros Hf. revert e h. induction es as [|e' es IH]; intros e h; cbn [loop]; unfold bind; specialize (Hf e h); destruct (f d e h) as [[r b] h1]; cbn in Hf; destruct (r =? 0), b; cbn [negb]; try done. by eapply adds_trans, IH.
Qed.
Lemma folder_adds f d h : (forall e h, adds h (f d e h).2) -> adds h (for_each_in_folder w (Some d) (Some f) h).2.
Proof.
  intros Hf. unfold for_each_in_folder, bind, sprintf_char. destruct (memory w h); [|apply adds_refl]. destruct (dir w (d ++ [92; 42])) as [| |e es ends]; cbn.
  - eapply adds_alloc, adds_refl.
  - eapply adds_alloc, adds_refl.
  - pose proof (loop_adds f d e es ends (Open (S (length h)) (d ++ [92; 42]) :: Alloc (length h) (d ++ [92; 42]) :: h) Hf) as Hl. destruct (loop _ _ _ _ _ _) as [err h']. cbn in *. eapply adds_alloc, adds_open, Hl.
Qed.
Lemma call_adds d e h : adds h (call w d e h).2.
Proof. exists [Act d e]. split; [done|constructor]. Qed.
Lemma sub_adds d e h : adds h (on_subfolder_folder w (call w) d e h).2.
Proof.
  unfold on_subfolder_folder. destruct (negb (is_dir e)); [apply adds_refl|]. destruct (_ || _); [apply adds_refl|]. unfold bind, sprintf_char. destruct (memory w h); [|apply adds_refl].
  pose proof (folder_adds (call w) (d ++ [92] ++ name e) (Alloc (length h) (d ++ [92] ++ name e) :: h) (call_adds _)) as Hf. destruct (for_each_in_folder w _ _ _) as [r h']. cbn in *. eapply adds_alloc, Hf.
Qed.
Lemma run_calls d h es a h' : run w d h es a h' -> calls h' = calls h ++ map (pair d) es.
Proof. induction 1 as [|h e es a h' He Hr IH]; cbn in *; [done|]. by rewrite IH, <-app_assoc. Qed.
End proofs.
