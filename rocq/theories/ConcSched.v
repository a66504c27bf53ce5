(** Runs threads (Conc) with a given schedule, to exhibit runs. *)
From Verif Require Import Common Prog Conc.

Section sched.
Context {S O R : Type} (L : system S O R).
Notation conf := (S * list (thread S O R))%type.
Inductive turn := Call (o : O) | Go (steps : nat) | Back | Env (f : S -> S).

Fixpoint go (n : nat) (i : nat) (c : conf) : option conf :=
  match n with
  | 0 => Some c
  | Datatypes.S n => match c.2 !! i with
           | Some (Running o (Act m k)) => match m c.1 with Done (x, s') => go n i (s', <[i := Running o (k x)]> c.2) | _ => None end
           | _ => None
           end
  end.
(** The schedule l is possible from c, and P holds at its end. *)
Fixpoint plays (l : list (nat * turn)) (c : conf) (P : conf -> Prop) : Prop :=
  match l with
  | [] => P c
  | (i, Call o) :: l => match c.2 !! i with Some Idle => match calls L i o c.1 with Some s => plays l (s, <[i := Running o (code L i o)]> c.2) P | None => False end | _ => False end
  | (i, Go n) :: l => match go n i c with Some c => plays l c P | None => False end
  | (i, Back) :: l => match c.2 !! i with Some (Running o (Ret r)) => plays l (returns L i o r c.1, <[i := Idle]> c.2) P | _ => False end
  | (i, Env f) :: l => env L c.1 (f c.1) /\ plays l (f c.1, c.2) P
  end.
Lemma go_steps n i s0 N c c' : reachable L s0 N c -> go n i c = Some c' -> reachable L s0 N c'.
Proof.
  revert c. induction n as [|n IH]; simpl; intros c Hc E; [by injection E as <-|]. destruct c as [s ts]. simpl in E.
  destruct (ts !! i) as [[|o [r|X m k]]|] eqn:Ei; try done. destruct (m s) as [[x s']| |] eqn:Em; try done. eapply IH; [|exact E]. eapply reach_step; [exact Hc|]. by eapply step_run.
Qed.
Lemma plays_steps l s0 N c P : reachable L s0 N c -> plays l c P -> exists c', reachable L s0 N c' /\ P c'.
Proof.
  revert c. induction l as [|[i t] l IH]; simpl; intros c Hc E; [by eauto|]. destruct c as [s ts]. destruct t as [o|n| |f]; simpl in E.
  - destruct (ts !! i) as [[|]|] eqn:Ei; try done. destruct (calls L i o s) as [s'|] eqn:Ec; [|done]. eapply IH; [|exact E]. eapply reach_step; [exact Hc|]. by eapply step_call.
  - destruct (go n i (s, ts)) as [c|] eqn:Eg; [|done]. eapply IH; [|exact E]. by eapply go_steps.
  - destruct (ts !! i) as [[|o [r|]]|] eqn:Ei; try done. eapply IH; [|exact E]. eapply reach_step; [exact Hc|]. by eapply step_return.
  - destruct E as [He E]. eapply IH; [|exact E]. eapply reach_step; [exact Hc|]. by eapply step_env.
Qed.
Lemma plays_reaches l s0 N P : plays l (s0, replicate N Idle) P -> exists c, reachable L s0 N c /\ P c.
Proof. apply plays_steps. apply reach_start. Qed.
End sched.
Arguments turn : clear implicits.
Definition blocked_b {S O R} (c : S * list (thread S O R)) (i : nat) : bool := match c.2 !! i with Some (Running o (Act m k)) => match m c.1 with NoFuel => true | _ => false end | _ => false end.
Lemma blocked_true {S O R} (c : S * list (thread S O R)) i : blocked_b c i = true -> blocked c i.
Proof. unfold blocked_b. destruct (c.2 !! i) as [[|o [r|X m k]]|] eqn:E; try done. destruct (m c.1) eqn:Em; try done. intros _. exists o, X, m, k. done. Qed.
Definition crashed_b {S O R} (c : S * list (thread S O R)) (i : nat) : bool := match c.2 !! i with Some (Running o (Act m k)) => match m c.1 with Undef => true | _ => false end | _ => false end.
Lemma crashed_true {S O R} (c : S * list (thread S O R)) i : crashed_b c i = true -> crashed c i.
Proof. unfold crashed_b. destruct (c.2 !! i) as [[|o [r|X m k]]|] eqn:E; try done. destruct (m c.1) eqn:Em; try done. intros _. exists o, X, m, k. done. Qed.
