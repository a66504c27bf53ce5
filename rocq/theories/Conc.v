(** Threads that call a library whose calls may block, run callbacks, or depend on an environment (timers, the scheduler of the operating system). As Prog.v, but without the
    ownership of things: which calls a thread may make is said by the state itself. A call is a sequence of atomic actions; an action whose outcome is NoFuel is blocked: it waits. *)
From Verif Require Import Common Prog.

Section conc.
Context {S O R : Type}.
Record system := System {
  code : nat -> O -> prog S R;          (* what a call made by this thread does *)
  calls : nat -> O -> S -> option S;    (* None: the thread may not make this call now; else, what the call being made changes in the record of what has happened *)
  returns : nat -> O -> R -> S -> S;    (* likewise, when the call answers *)
  env : S -> S -> Prop;                 (* what may happen by itself at any time *)
}.
Context (L : system).
Inductive thread := Idle | Running (o : O) (p : prog S R).

Inductive step : S * list thread -> S * list thread -> Prop :=
| step_call s ts i o s' : ts !! i = Some Idle -> calls L i o s = Some s' -> step (s, ts) (s', <[i := Running o (code L i o)]> ts)
| step_run s ts i o X (m : M S X) k x s' : ts !! i = Some (Running o (Act m k)) -> m s = Done (x, s') -> step (s, ts) (s', <[i := Running o (k x)]> ts)
| step_return s ts i o r : ts !! i = Some (Running o (Ret r)) -> step (s, ts) (returns L i o r s, <[i := Idle]> ts)
| step_env s ts s' : env L s s' -> step (s, ts) (s', ts).
(** The states that n threads can reach from s0, under every schedule. *)
Inductive reachable (s0 : S) (n : nat) : S * list thread -> Prop :=
| reach_start : reachable s0 n (s0, replicate n Idle)
| reach_step c c' : reachable s0 n c -> step c c' -> reachable s0 n c'.

(** Thread i is about to do something undefined; thread i is waiting. *)
Definition crashed (c : S * list thread) (i : nat) : Prop := exists o X (m : M S X) k, c.2 !! i = Some (Running o (Act m k)) /\ m c.1 = Undef.
Definition blocked (c : S * list thread) (i : nat) : Prop := exists o X (m : M S X) k, c.2 !! i = Some (Running o (Act m k)) /\ m c.1 = NoFuel.

(** Proof rule: every thread is in a local state (for instance the point in the code that it has reached); Inv relates the shared state and all the local states, shape the local state of a
    thread and what it still has to do. *)
Section rule.
Context {T : Type} (Inv : S -> list T -> Prop) (idle : T -> Prop) (blk : nat -> T -> S -> Prop) (shape : O -> prog S R -> T -> Prop).
Section body.
Context (A : prog S R -> T -> Prop) (i : nat) (o : O) (Q : R -> T -> Prop).
(** One action of p, started in local state l by thread i, keeps Inv, whatever the other threads have done before, and leads to a program and local state in W; it blocks only when blk
    says so. If p answers, then as Q says. *)
Definition body (W : prog S R -> T -> Prop) (p : prog S R) (l : T) : Prop :=
  shape o p l /\
  match p with
  | Ret r => Q r l
  | Act m k => forall s ls, ls !! i = Some l -> Inv s ls ->
    match m s with
    | Done (x, s') => exists l', Inv s' (<[i := l']> ls) /\ W (k x) l'
    | NoFuel => blk i l s
    | Undef => False
    end
  end.
(** All actions of p, until it comes to a program and local state in A, if ever. *)
Definition wpa (p : prog S R) (l : T) : Prop := exists W : prog S R -> T -> Prop, W p l /\ forall p l, W p l -> A p l \/ body W p l.

Lemma body_mono (W W' : prog S R -> T -> Prop) p l : (forall p l, W p l -> W' p l) -> body W p l -> body W' p l.
Proof.
  intros H [Hsh Hb]. split; [done|]. destruct p as [r|X m k]; [done|]. intros s ls Hl HI. specialize (Hb s ls Hl HI). destruct (m s) as [[x s']| |]; [|done..].
  destruct Hb as (l'&?&?). eauto.
Qed.
Lemma wpa_unfold p l : wpa p l -> A p l \/ body wpa p l.
Proof. intros (W&Hw&HW). destruct (HW _ _ Hw) as [|Hb]; [by left|right]. revert Hb. apply body_mono. intros p' l' H'. exists W. done. Qed.
Lemma wpa_fold p l : A p l \/ body wpa p l -> wpa p l.
Proof.
  intros Hb. exists (fun p l => A p l \/ body wpa p l). split; [done|]. clear p l Hb. intros p l [Hb|Hb]; [by left|right]. revert Hb. apply body_mono. intros p' l' H'. by apply wpa_unfold.
Qed.
Lemma wpa_ret r l : shape o (Ret r) l -> Q r l -> wpa (Ret r) l.
Proof. intros Hsh HQ. apply wpa_fold. by right. Qed.
Lemma wpa_again p l : A p l -> wpa p l.
Proof. intros HA. apply wpa_fold. by left. Qed.
Lemma wpa_act X (m : M S X) k l : shape o (Act m k) l ->
  (forall s ls, ls !! i = Some l -> Inv s ls ->
    match m s with Done (x, s') => exists l', Inv s' (<[i := l']> ls) /\ wpa (k x) l' | NoFuel => blk i l s | Undef => False end) -> wpa (Act m k) l.
Proof. intros Hsh H. apply wpa_fold. by right. Qed.
End body.
Definition wp := wpa (fun _ _ => False).
(** For loops: A holds where they start again. *)
Lemma wp_loop (A : prog S R -> T -> Prop) i o Q p l : (forall p l, A p l -> body i o Q (wpa A i o Q) p l) -> wpa A i o Q p l -> wp i o Q p l.
Proof. intros HA Hw. exists (wpa A i o Q). split; [done|]. clear p l Hw. intros p l Hw. right. apply wpa_unfold in Hw as [Hw|Hw]; auto. Qed.

Definition runs_ok (i : nat) (o : O) (p : prog S R) (l : T) : Prop :=
  wp i o (fun r l => forall s ls, ls !! i = Some l -> Inv s ls -> exists l', idle l' /\ Inv (returns L i o r s) (<[i := l']> ls)) p l.
Definition thr_ok (i : nat) (t : thread) (l : T) : Prop := match t with Idle => idle l | Running o p => runs_ok i o p l end.

Context (Hcall : forall i o s s' ls l, ls !! i = Some l -> idle l -> Inv s ls -> calls L i o s = Some s' -> exists l', Inv s' (<[i := l']> ls) /\ runs_ok i o (code L i o) l').
Context (Henv : forall s s' ls, Inv s ls -> env L s s' -> Inv s' ls).

Definition conf_ok (c : S * list thread) : Prop := exists ls, length ls = length c.2 /\ Inv c.1 ls /\ forall i t l, c.2 !! i = Some t -> ls !! i = Some l -> thr_ok i t l.

Lemma update_ok s (ts : list thread) ls i t l : length ls = length ts -> Inv s (<[i := l]> ls) -> (forall j t l, ts !! j = Some t -> ls !! j = Some l -> thr_ok j t l) -> thr_ok i t l ->
  conf_ok (s, <[i := t]> ts).
Proof.
  intros Hl HI Hj Hi. exists (<[i := l]> ls). cbn [fst snd]. rewrite !insert_length. split_and!; [done..|]. intros j t' l' Ht Hl'.
  destruct (decide (i = j)) as [<-|Hne].
  - rewrite list_lookup_insert in Ht by (apply lookup_lt_Some in Ht; by rewrite insert_length in Ht). rewrite list_lookup_insert in Hl' by (apply lookup_lt_Some in Hl'; by rewrite insert_length in Hl').
    by simplify_eq.
  - rewrite list_lookup_insert_ne in Ht by done. rewrite list_lookup_insert_ne in Hl' by done. eauto.
Qed.
Lemma step_ok c c' : conf_ok c -> step c c' -> conf_ok c'.
Proof.
  intros (ls&Hl&HI&Hts) Hs. destruct Hs as [s ts i o s' Hi Hc|s ts i o X m k x s' Hi Hm|s ts i o r Hi|s ts s' He]; cbn [fst snd] in *.
  4: { exists ls. split_and!; eauto. }
  all: assert (exists l, ls !! i = Some l) as [l Hli] by (apply lookup_lt_is_Some_2; rewrite Hl; by eapply lookup_lt_Some); pose proof (Hts _ _ _ Hi Hli) as Ht; cbn [thr_ok] in Ht.
  - destruct (Hcall _ _ _ _ _ _ Hli Ht HI Hc) as (l'&HI'&Hr). by eapply update_ok.
  - apply wpa_unfold in Ht as [[]|[_ Ht]]. specialize (Ht s ls Hli HI). rewrite Hm in Ht. destruct Ht as (l'&HI'&Hr). by eapply update_ok.
  - apply wpa_unfold in Ht as [[]|[_ Ht]]. destruct (Ht s ls Hli HI) as (l'&Hid&HI'). by eapply update_ok.
Qed.
(** What holds of every state that threads can reach. *)
Lemma reach_ok s0 n c l0 : idle l0 -> Inv s0 (replicate n l0) -> reachable s0 n c -> conf_ok c.
Proof.
  intros Hid HI. induction 1 as [|c c' _ IH Hs]; [|by eapply step_ok].
  exists (replicate n l0). cbn [fst snd]. rewrite !replicate_length. split_and!; [done..|]. intros i t l Ht Hl. apply lookup_replicate in Ht as [-> _], Hl as [-> _]. done.
Qed.
Lemma ok_no_crash c i : conf_ok c -> ~ crashed c i.
Proof.
  intros (ls&Hl&HI&Hts) (o&X&m&k&Hi&Hm). assert (exists l, ls !! i = Some l) as [l Hli] by (apply lookup_lt_is_Some_2; rewrite Hl; by eapply lookup_lt_Some).
  specialize (Hts _ _ _ Hi Hli). apply wpa_unfold in Hts as [[]|[_ Hts]]. specialize (Hts _ _ Hli HI). by rewrite Hm in Hts.
Qed.
Lemma ok_blocked c ls i : length ls = length c.2 -> Inv c.1 ls -> (forall i t l, c.2 !! i = Some t -> ls !! i = Some l -> thr_ok i t l) -> blocked c i -> exists l, ls !! i = Some l /\ blk i l c.1.
Proof.
  intros Hl HI Hts (o&X&m&k&Hi&Hm). assert (exists l, ls !! i = Some l) as [l Hli] by (apply lookup_lt_is_Some_2; rewrite Hl; by eapply lookup_lt_Some).
  specialize (Hts _ _ _ Hi Hli). apply wpa_unfold in Hts as [[]|[_ Hts]]. specialize (Hts _ _ Hli HI). rewrite Hm in Hts. eauto.
Qed.
Lemma ok_shape i o p l : thr_ok i (Running o p) l -> shape o p l.
Proof. intros H. by apply wpa_unfold in H as [[]|[? _]]. Qed.
End rule.
End conc.
Arguments system : clear implicits.
Arguments thread : clear implicits.

(** Code whose loops are corecursive is written with Act itself. *)
Notation "'act*' x ':=' m 'in' k" := (Act m (fun x => k)) (at level 200, x pattern, m at level 100, k at level 200, right associativity).

(** Changing one element of a list, counted. *)
Section count.
Context {A : Type} (f : A -> Prop) `{forall x, Decision (f x)}.
Definition num (l : list A) : nat := length (filter f l).
Lemma num_insert (l : list A) i x y : l !! i = Some x -> (num (<[i := y]> l) + (if decide (f x) then 1 else 0) = num l + (if decide (f y) then 1 else 0))%nat.
Proof.
  revert i. unfold num. induction l as [|z l IH]; intros [|i] Hi; try done.
  - simplify_eq/=. rewrite !filter_cons. repeat destruct (decide _); cbn [length]; lia.
  - change (<[S i := y]> (z :: l)) with (z :: <[i := y]> l). rewrite !filter_cons. specialize (IH i Hi). revert IH. repeat destruct (decide _); cbn [length]; lia.
Qed.
Lemma num_pos (l : list A) i x : l !! i = Some x -> f x -> (0 < num l)%nat.
Proof.
  revert i. unfold num. induction l as [|z l IH]; intros [|i] Hi Hf; try done; simplify_eq/=; rewrite filter_cons.
  - rewrite decide_True by done. cbn. lia.
  - specialize (IH i Hi Hf). case_decide; cbn [length]; lia.
Qed.
Lemma num_two (l : list A) i j x y : i <> j -> l !! i = Some x -> l !! j = Some y -> f x -> f y -> (1 < num l)%nat.
Proof.
  revert i j. unfold num. induction l as [|z l IH]; intros [|i] [|j] Hij Hi Hj Hx Hy; try done; simplify_eq/=; rewrite filter_cons.
  - rewrite decide_True by done. pose proof (num_pos l j y Hj Hy) as Hp. unfold num in Hp. cbn [length]. lia.
  - rewrite decide_True by done. pose proof (num_pos l i x Hi Hx) as Hp. unfold num in Hp. cbn [length]. lia.
  - specialize (IH i j ltac:(lia) Hi Hj Hx Hy). case_decide; cbn [length]; lia.
Qed.
Lemma num_zero (l : list A) : num l = 0%nat -> forall i x, l !! i = Some x -> ~ f x.
Proof. intros Hn i x Hi Hf. pose proof (num_pos l i x Hi Hf). lia. Qed.
Lemma num_replicate n x : ~ f x -> num (replicate n x) = 0%nat.
Proof. intros Hf. unfold num. induction n; [done|]. cbn [replicate]. rewrite filter_cons, decide_False by done. done. Qed.
Lemma num_ex (l : list A) : (0 < num l)%nat -> exists i x, l !! i = Some x /\ f x.
Proof.
  unfold num. intros Hn. destruct (filter f l) as [|x t] eqn:E; [cbn in Hn; lia|]. assert (x ∈ filter f l) as Hx by (rewrite E; by left).
  apply elem_of_list_filter in Hx as [Hf Hx]. apply elem_of_list_lookup in Hx as [i Hi]. eauto.
Qed.
End count.
