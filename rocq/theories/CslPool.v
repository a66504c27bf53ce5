(** What a specification in Csl of every call of a library says about any number of threads that use it. *)
From Verif Require Export Csl.
From Verif Require Import Common Block CMem Prog.

Ltac sp := repeat match goal with |- _ /\ _ => split end.
Section pool.
Context {O T : Type} `{!EqDecision T} {CT : Countable T} (Inv : gmultiset T -> piece O -> Prop).
Context {Op R H : Type} (L : library (st O) Op R H) (own : H -> cPropI O T) (ok : Op -> R -> nat -> nat -> Prop).
Notation thr := (thread (st O) Op R H).
Notation cP := (cPropI O T).

Definition all (l : list H) : cP := ([∗ list] x ∈ l, own x)%I.
Definition answer (o : Op) (f : nat) : R -> nat -> cP := fun r f' => (⌈ok o r f f'⌉ ∗ all (gives L o r))%I.
Context (spec : forall o f, allowed L o -> all (uses L o) ⊢ cwp Inv (code L o) f (answer o f)).

Definition thr_ok (n : nat) (t : thr) : cP :=
  match t with
  | Idle held => all held
  | Running o b p held => ∃ f, ⌈f <= n⌉ ∗ cwp Inv p f (answer o (fails b)) ∗ all held
  end.
(** The pool, besides a thread that holds fr. *)
Definition pool_ok (fr : share O T) (c : st O * list thr) : Prop :=
  exists r sh, cholds ([∗ list] t ∈ c.2, thr_ok (fails c.1) t)%I r /\ sdisj r fr /\ pdisj (spiece (sunion r fr)) sh /\ Inv (stoks (sunion r fr)) sh /\
    mem c.1 = pmem (punion (spiece (sunion r fr)) sh) /\ objs c.1 = pobjs (punion (spiece (sunion r fr)) sh).

Lemma thr_ok_mono n n' t : n <= n' -> thr_ok n t ⊢ thr_ok n' t.
Proof. intros Hn. destruct t as [held|o b p held]; [done|]. simpl. iIntros "(%f&%Hf&H1&H2)". iExists f. iFrame "H1 H2". iPureIntro. lia. Qed.
Lemma thrs_mono n n' ts : n <= n' -> ([∗ list] t ∈ ts, thr_ok n t) ⊢ [∗ list] t ∈ ts, thr_ok n' t.
Proof. intros Hn. apply big_sepL_mono. intros. by apply thr_ok_mono. Qed.
Lemma all_perm l l' : l ≡ₚ l' -> all l ⊢ all l'.
Proof. intros Hp. unfold all. by rewrite Hp. Qed.
Lemma heap_eta (s : st O) p : mem s = pmem p -> objs s = pobjs p -> s = heap_state p (oracle s) (fails s).
Proof. destruct s. unfold heap_state. simpl. intros. by subst. Qed.
Lemma pick_bi ts i t n : ts !! i = Some t ->
  ([∗ list] t ∈ ts, thr_ok n t) ⊢ thr_ok n t ∗ ∀ n' t', ⌈n <= n'⌉ -∗ thr_ok n' t' -∗ [∗ list] t ∈ <[i := t']> ts, thr_ok n' t.
Proof.
  intros Hi. apply elem_of_list_split_length in Hi as (l1&l2&->&->). rewrite big_sepL_app. simpl. iIntros "(H1&H2&H3)". iFrame "H2".
  iIntros (n' t') "%Hn H2". rewrite (thrs_mono n n') // (thrs_mono n n') //. rewrite insert_app_r_alt // Nat.sub_diag. simpl. rewrite big_sepL_app. simpl. iFrame "H1 H2 H3".
Qed.
Lemma pick ts i t n r : ts !! i = Some t -> cholds ([∗ list] t ∈ ts, thr_ok n t)%I r ->
  exists r1 r2, r = sunion r1 r2 /\ sdisj r1 r2 /\ cholds (thr_ok n t) r1 /\
    forall n' t' r', n <= n' -> sdisj r' r2 -> cholds (thr_ok n' t') r' -> cholds ([∗ list] t ∈ <[i := t']> ts, thr_ok n' t)%I (sunion r' r2).
Proof.
  intros Hi Hr. eapply cholds_mono in Hr; [|by apply (pick_bi _ _ _ _ Hi)]. destruct Hr as (r1&r2&->&Hd&H1&H2). exists r1, r2. split_and!; try done.
  intros n' t' r' Hn Hd' Ht'. specialize (H2 n' t' sempty (sdisj_empty_r _)). rewrite sunion_empty_r in H2. rewrite sunion_comm //. apply H2; [by split|by apply sdisj_sym|done].
Qed.

Lemma step_ok' fr i c c' : pool_ok fr c -> pool_step L i c c' -> pool_ok fr c' /\ fails c.1 <= fails c'.1.
Proof.
  intros (r&sh&Hr&D1&D2&HI&Hm&Ho) Hs. destruct Hs as [s ts held o rest Hi Hal Hp|s ts o b X m k held x s' Hi Hx|s ts o b a held Hi|s ts j held held' x rest Hij Hi Hj Hp]; cbn [fst snd] in *.
  - destruct (pick _ _ _ _ _ Hi Hr) as (r1&r2&->&D3&H1&H2). split; [|done]. exists (sunion r1 r2), sh. split_and!; try done. apply H2; [done|done|].
    eapply cholds_mono; [|exact H1]. simpl. rewrite (all_perm _ _ Hp). iIntros "H". iDestruct (big_sepL_app with "H") as "[H1 H2]". iExists (fails s). iSplit; [done|]. iSplitL "H1"; [|done].
    by iApply spec.
  - destruct (pick _ _ _ _ _ Hi Hr) as (r1&r2&->&D3&H1&H2). destruct H1 as (f&rz&r1'&->&D4&[-> Hf]&H1). rewrite sunion_empty_l in D1 D2 HI Hm Ho D3.
    destruct H1 as (r3&r4&->&D5&Hw&Hh). apply cwp_unfold in Hw. apply sdisj_union_l in D3 as [D3a D3b]. apply sdisj_union_l in D1 as [D1 D1c]. apply sdisj_union_l in D1 as [D1a D1b].
    rewrite -!sunion_assoc in D2 HI Hm Ho.
    destruct (Hw (sunion r4 (sunion r2 fr)) sh (oracle s) (fails s)) as (x0&s0&r'&sh'&E&F1&F2&I2&Hm2&Ho2&Hf2&Hk); [|done..|].
    { repeat (apply sdisj_union_r; split); done. }
    rewrite -(heap_eta s) // Hx in E. injection E as <- <-. apply sdisj_union_r in F1 as [F1 F3]. apply sdisj_union_r in F3 as [F3 F4].
    split; [|done]. exists (sunion (sunion r' r4) r2), sh'. cbn [fst snd]. rewrite -!sunion_assoc. split; [|sp; try done; repeat (apply sdisj_union_l; split); done].
    rewrite sunion_assoc. apply H2; [done|by apply sdisj_union_l|]. exists (fails s'), sempty, (sunion r' r4). rewrite sunion_empty_l. split; [done|]. split; [apply sdisj_empty_l|].
    split; [split; [done|exact (le_n _)]|]. by exists r', r4.
  - destruct (pick _ _ _ _ _ Hi Hr) as (r1&r2&->&D3&H1&H2). destruct H1 as (f&rz&r1'&->&D4&[-> Hf]&H1). rewrite sunion_empty_l in D1 D2 HI Hm Ho D3.
    destruct H1 as (r3&r4&->&D5&Hw&Hh). apply cwp_unfold in Hw. apply sdisj_union_l in D3 as [D3a D3b]. apply sdisj_union_l in D1 as [D1 D1c]. apply sdisj_union_l in D1 as [D1a D1b].
    rewrite -!sunion_assoc in D2 HI Hm Ho.
    destruct (Hw (sunion r4 (sunion r2 fr)) sh) as (r'&sh'&F1&F2&I2&E&Hk); [|done..|].
    { repeat (apply sdisj_union_r; split); done. }
    rewrite E in Hm Ho. apply sdisj_union_r in F1 as [F1 F3]. apply sdisj_union_r in F3 as [F3 F4]. destruct Hk as (rz&r0&->&_&[-> _]&Hk). rewrite sunion_empty_l in F1 F2 I2 F3 F4 Hm Ho.
    split; [|done]. exists (sunion (sunion r0 r4) r2), sh'. cbn [fst snd]. rewrite -!sunion_assoc. split; [|sp; try done; repeat (apply sdisj_union_l; split); done].
    rewrite sunion_assoc. apply H2; [done|by apply sdisj_union_l|]. cbn [thr_ok]. unfold all. eapply cholds_mono; [by rewrite big_sepL_app|]. by exists r0, r4.
  - destruct (pick _ _ _ _ _ Hj Hr) as (r1&r2&->&D3&H1&H2).
    assert (Hr' : cholds ([∗ list] t ∈ <[i := Idle rest]> (<[j := Idle (x :: held')]> ts), thr_ok (fails s) t)%I (sunion r1 r2)).
    { clear H1 H2. revert Hr. apply cholds_mono. iIntros "H". iDestruct (pick_bi _ _ _ _ Hj with "H") as "[Hj H]". 
      iDestruct ("H" $! (fails s) (Idle []) with "[//] []") as "H"; [by rewrite /= /all|].
      assert (<[j:=Idle []]> ts !! i = Some (Idle held)) as Hi' by by rewrite list_lookup_insert_ne.
      iDestruct (pick_bi _ _ _ _ Hi' with "H") as "[Hi H]". simpl. rewrite (all_perm _ _ Hp). iDestruct "Hi" as "[Hx Hi]".
      iDestruct ("H" $! (fails s) (Idle rest) with "[//] Hi") as "H". rewrite list_insert_commute //.
      assert (<[j:=Idle []]> (<[i:=Idle rest]> ts) !! j = Some (Idle [])) as Hj' by (rewrite list_lookup_insert //; rewrite insert_length; by eapply lookup_lt_Some).
      iDestruct (pick_bi _ _ _ _ Hj' with "H") as "[_ H]". iDestruct ("H" $! (fails s) (Idle (x :: held')) with "[//] [Hj Hx]") as "H"; [simpl; iFrame "Hj Hx"|].
      rewrite list_insert_insert (list_insert_commute _ i j) //. }
    split; [|done]. exists (sunion r1 r2), sh. done.
Qed.
Lemma step_ok fr i c c' : pool_ok fr c -> pool_step L i c c' -> pool_ok fr c'.
Proof. intros H1 H2. by destruct (step_ok' _ _ _ _ H1 H2). Qed.

(** No thread ever does something undefined. *)
Lemma no_crash fr c : pool_ok fr c -> ~ crashes c.
Proof.
  intros (r&sh&Hr&D1&D2&HI&Hm&Ho) (i&o&b&X&m&k&held&Hi&Hx). destruct (pick _ _ _ _ _ Hi Hr) as (r1&r2&->&D3&H1&H2). destruct H1 as (f&rz&r1'&->&D4&[-> Hf]&H1). rewrite sunion_empty_l in D1 D2 HI Hm Ho D3.
  destruct H1 as (r3&r4&->&D5&Hw&Hh). apply cwp_unfold in Hw. apply sdisj_union_l in D3 as [D3a D3b]. apply sdisj_union_l in D1 as [D1 D1c]. apply sdisj_union_l in D1 as [D1a D1b].
  rewrite -!sunion_assoc in D2 HI Hm Ho.
  destruct (Hw (sunion r4 (sunion r2 fr)) sh (oracle c.1) (fails c.1)) as (x0&s0&r'&sh'&E&F1&F2&I2&Hm2&Ho2&Hf2&Hk); [|done..|].
  { repeat (apply sdisj_union_r; split); done. }
  rewrite -(heap_eta c.1) // in E. by eapply Hx.
Qed.
(** Answers are as specified. *)
Lemma answers_ok fr c i o b a held : pool_ok fr c -> c.2 !! i = Some (Running o b (Ret a) held) -> exists f, f <= fails c.1 /\ ok o a (fails b) f.
Proof.
  intros (r&sh&Hr&D1&D2&HI&Hm&Ho) Hi. destruct (pick _ _ _ _ _ Hi Hr) as (r1&r2&->&D3&H1&H2). destruct H1 as (f&rz&r1'&->&D4&[-> Hf]&H1). rewrite sunion_empty_l in D1 D2 HI Hm Ho D3.
  destruct H1 as (r3&r4&->&D5&Hw&Hh). apply cwp_unfold in Hw. apply sdisj_union_l in D3 as [D3a D3b]. apply sdisj_union_l in D1 as [D1 D1c]. apply sdisj_union_l in D1 as [D1a D1b].
  rewrite -!sunion_assoc in D2 HI Hm Ho.
  destruct (Hw (sunion r4 (sunion r2 fr)) sh) as (r'&sh'&F1&F2&I2&E&Hk); [|done..|].
  { repeat (apply sdisj_union_r; split); done. }
  destruct Hk as (rz&r0&->&_&[-> Hok]&Hk). by exists f.
Qed.
Lemma init_ok s n : Inv ∅ (Piece (mem s) (objs s)) -> pool_ok sempty (s, replicate n (Idle [])).
Proof.
  intros HI. exists sempty, (Piece (mem s) (objs s)). cbn [fst snd]. split; [|split_and!].
  - clear HI. induction n as [|n IH]; [done|]. exists sempty, sempty. rewrite sunion_empty_l. split_and!; [done|apply sdisj_empty_l|done|done].
  - apply sdisj_empty_l.
  - rewrite sunion_empty_l. apply pdisj_empty_l.
  - rewrite sunion_empty_l. done.
  - rewrite sunion_empty_l. cbn [spiece sempty]. by rewrite punion_empty_l.
  - rewrite sunion_empty_l. cbn [spiece sempty]. by rewrite punion_empty_l.
Qed.
Lemma steps_ok fr c c' : pool_ok fr c -> pool_steps L c c' -> pool_ok fr c'.
Proof. intros Hc. induction 1 as [|c i c' c'' Hs IH Hstep]; [done|]. eapply step_ok; [|done]. by apply IH. Qed.

(** Every call comes to an end. *)
Lemma others_running i c c' o b p held : c.2 !! i = Some (Running o b p held) -> others L i c c' -> c'.2 !! i = Some (Running o b p held).
Proof.
  intros Hi. induction 1 as [|c j c' c'' Ho IH Hij Hs]; [done|]. specialize (IH Hi). destruct Hs as [| | |s ts j' held0 held' x rest Hjj Hi0 Hj0 Hp]; simpl in *.
  1-3: by rewrite list_lookup_insert_ne.
  rewrite !list_lookup_insert_ne //. intros ->. congruence.
Qed.
Lemma others_pool i c c' o b p held fr : c.2 !! i = Some (Running o b p held) -> others L i c c' ->
  pool_ok fr (c.1, <[i := Idle []]> c.2) -> pool_ok fr (c'.1, <[i := Idle []]> c'.2) /\ fails c.1 <= fails c'.1.
Proof.
  intros Hi Ho. induction Ho as [|c j c' c'' Ho IH Hij Hs]; [done|]. intros Hc. destruct (IH Hi Hc) as [IH1 IH2]. pose proof (others_running _ _ _ _ _ _ _ Hi Ho) as Hi'. clear Hc IH.
  apply (step_ok' fr j (c'.1, <[i:=Idle []]> c'.2) (c''.1, <[i:=Idle []]> c''.2)) in IH1 as [IH1 IH3]; [split; [done|simpl in IH3; lia]|]. destruct Hs as [s ts held0 o0 rest Hj Hal Hp|s ts o0 b0 X m k held0 x s' Hj Hx|s ts o0 b0 a held0 Hj|s ts j' held0 held' x rest Hjj Hj0 Hj1 Hp]; simpl in *.
  - rewrite list_insert_commute //. econstructor; [|done|done]. by rewrite list_lookup_insert_ne.
  - rewrite list_insert_commute //. econstructor; [|done]. by rewrite list_lookup_insert_ne.
  - rewrite list_insert_commute //. econstructor. by rewrite list_lookup_insert_ne.
  - assert (i <> j') by (intros ->; congruence). rewrite list_insert_commute // (list_insert_commute _ i j') //. econstructor; [done|..|done]; by rewrite list_lookup_insert_ne.
Qed.
(** A step of a thread that is in a call. *)
Definition prog_step {A} (p : prog (st O) A) (s : st O) (p' : prog (st O) A) (s' : st O) : Prop :=
  match p with Ret _ => False | Act m k => exists x, m s = Done (x, s') /\ p' = k x end.
Lemma running_step i s ts c o b p held : ts !! i = Some (Running o b p held) -> pool_step L i (s, ts) c ->
  (exists held', c.2 !! i = Some (Idle held')) \/ (exists p' s', prog_step p s p' s' /\ c = (s', <[i := Running o b p' held]> ts)).
Proof.
  intros Hi Hs. inversion Hs as [? ? ? ? ? Hx ?|? ? ? ? X m k ? x s' Hx Hm|? ? ? ? ? ? Hx|? ? ? ? ? ? ? ? Hx]; subst; rewrite Hi in Hx; try done.
  - right. injection Hx as -> -> -> ->. exists (k x), s'. split; [by exists x|done].
  - left. eexists. apply list_lookup_insert. by eapply lookup_lt_Some.
Qed.
Lemma finishes_run i o b held (n0 := fails b) p f r : cholds (cwp Inv p f (answer o n0)) r ->
  forall r2 s ts, ts !! i = Some (Running o b p held) -> cholds (all held) r2 -> sdisj r r2 -> f <= fails s -> pool_ok (sunion r r2) (s, <[i := Idle []]> ts) -> finishes L i (s, ts).
Proof.
  revert p f r. refine (cwp_ind Inv (answer o n0) (fun p f r => forall r2 s ts, ts !! i = Some (Running o b p held) -> cholds (all held) r2 -> sdisj r r2 -> f <= fails s ->
    pool_ok (sunion r r2) (s, <[i := Idle []]> ts) -> finishes L i (s, ts)) _ _).
  - intros a f r Hr r2 s ts Hi Hh Hd Hf Hp. apply fin_run. intros [s1 ts1] c'' Ho Hs. pose proof (others_running i (s, ts) _ _ _ _ _ Hi Ho) as Hi'.
    destruct (running_step _ _ _ _ _ _ _ _ Hi' Hs) as [[held' E]|(p'&s'&[]&_)]. by eapply fin_idle.
  - intros X m k f r Hr r2 s ts Hi Hh Hd Hf Hp. apply fin_run. intros [s1 ts1] c'' Ho Hs. pose proof (others_running i (s, ts) _ _ _ _ _ Hi Ho) as Hi'.
    destruct (others_pool i (s, ts) _ _ _ _ _ _ Hi Ho Hp) as [Hp' Hle]. clear Hp Ho Hi. cbn [fst snd] in *.
    destruct (running_step _ _ _ _ _ _ _ _ Hi' Hs) as [[held' E]|(p'&s'&(x&Hx&->)&->)]; [by eapply fin_idle|].
    destruct Hp' as (r3&sh&H3&D1&D2&HI&Hm&Ho). cbn [fst snd] in *. apply sdisj_union_r in D1 as [D1 D1'].
    rewrite (sunion_comm r3) in D2 HI Hm Ho; [|by apply sdisj_union_r]. rewrite -sunion_assoc in D2 HI Hm Ho.
    destruct (Hr (sunion r2 r3) sh (oracle s1) (fails s1)) as (x0&s0&r'&sh'&E&F1&F2&I2&Hm2&Ho2&Hf2&Hk); [|done|done|lia|].
    { apply sdisj_union_r. split; [done|]. by apply sdisj_sym. }
    rewrite -(heap_eta s1) // Hx in E. injection E as <- <-. apply sdisj_union_r in F1 as [F1 F3].
    apply (Hk r2); [apply list_lookup_insert; by eapply lookup_lt_Some|done|done|done|].
    rewrite list_insert_insert. exists r3, sh'. cbn [fst snd]. rewrite (sunion_comm r3); [|apply sdisj_union_r; split; [by apply sdisj_sym|done]].
    rewrite -sunion_assoc. split; [by eapply cholds_mono; [by apply thrs_mono|]|]. split; [|done]. apply sdisj_union_r. split; [by apply sdisj_sym|done].
Qed.
Lemma call_finishes c i t : pool_ok sempty c -> c.2 !! i = Some t -> finishes L i c.
Proof.
  destruct c as [s ts]. intros (r&sh&Hr&D1&D2&HI&Hm&Ho) Hi. cbn [fst snd] in *. destruct t as [held|o b p held]; [by eapply fin_idle|].
  destruct (pick _ _ _ _ _ Hi Hr) as (r1&r2&->&D3&(f&rz&r1'&->&D4&[-> Hf]&(r3&r4&->&D5&Hw&Hh))&H2). rewrite sunion_empty_l in D1 D2 HI Hm Ho D3 H2 Hr.
  eapply finishes_run; [exact Hw|exact Hi|exact Hh|done|done|]. exists r2, sh. cbn [fst snd]. rewrite sunion_empty_r in D2 HI Hm Ho.
  rewrite (sunion_comm r2); [|by apply sdisj_sym]. split; [|split; [by apply sdisj_sym|done]].
  assert (cholds ([∗ list] t ∈ <[i:=Idle []]> ts, thr_ok (fails s) t)%I (sunion sempty r2)) as Hx; [|by rewrite sunion_empty_l in Hx].
  apply H2; [done|apply sdisj_empty_l|done].
Qed.
(** Between calls. *)
Definition idle_holding (t : thr) (held : list H) : Prop := t = Idle held.
Lemma quiet c helds : pool_ok sempty c -> Forall2 idle_holding c.2 helds ->
  exists r sh, cholds (all (concat helds)) r /\ pdisj (spiece r) sh /\ Inv (stoks r) sh /\ mem c.1 = pmem (punion (spiece r) sh) /\ objs c.1 = pobjs (punion (spiece r) sh).
Proof.
  intros (r&sh&Hr&D1&D2&HI&Hm&Ho) Hall. rewrite sunion_empty_r in D2 HI Hm Ho. exists r, sh. split; [|done]. eapply cholds_mono; [|exact Hr]. clear -Hall.
  induction Hall as [|t held ts helds -> Hall IH]; simpl; [done|]. unfold all. rewrite big_sepL_app. iIntros "[H1 H2]". iFrame "H1". by iApply IH.
Qed.
(** All together: threads that begin with nothing. *)
Theorem pool_correct s n c : Inv ∅ (Piece (mem s) (objs s)) -> pool_steps L (s, replicate n (Idle [])) c ->
  ~ crashes c /\
  (forall i o b a held, c.2 !! i = Some (Running o b (Ret a) held) -> exists f, f <= fails c.1 /\ ok o a (fails b) f) /\
  (forall i, i < n -> finishes L i c) /\
  (forall helds, Forall2 idle_holding c.2 helds ->
     exists r sh, cholds (all (concat helds)) r /\ pdisj (spiece r) sh /\ Inv (stoks r) sh /\ mem c.1 = pmem (punion (spiece r) sh) /\ objs c.1 = pobjs (punion (spiece r) sh)).
Proof.
  intros HI Hs. pose proof (steps_ok _ _ _ (init_ok s n HI) Hs) as Hc. split; [by eapply no_crash|]. split; [|split].
  - intros i o b a held. by eapply answers_ok.
  - intros i Hi. assert (length c.2 = n) as Hl.
    { clear -Hs. remember (s, replicate n (Idle [])) as c0 eqn:E. induction Hs as [|c0 j c' c'' Hs IH Hstep]; [subst; apply replicate_length|].
      rewrite -(IH E). destruct Hstep; simpl; by rewrite !insert_length. }
    rewrite -Hl in Hi. apply lookup_lt_is_Some_2 in Hi as [t Ht]. by eapply call_finishes.
  - intros helds. by apply quiet.
Qed.
End pool.
