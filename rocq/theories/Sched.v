(** Runs threads that call a library (Prog) with a given schedule, to exhibit runs. *)
From Verif Require Import Common Prog.

Section sched.
Context {S O R H : Type} `{EqDecision H} (L : library S O R H).
Notation pool := (S * list (thread S O R H))%type.
Inductive turn := Call (o : O) | Go (steps : nat) | Answer | Hand (j : nat) (x : H).

Fixpoint remove_all (used held : list H) : option (list H) :=
  match used with [] => Some held | x :: used => match list_remove x held with Some held => remove_all used held | None => None end end.
Fixpoint go (n : nat) (i : nat) (c : pool) : option pool :=
  match n with
  | 0 => Some c
  | Datatypes.S n => match c.2 !! i with
           | Some (Running o b (Act m k) held) => match m c.1 with Done (x, s') => go n i (s', <[i := Running o b (k x) held]> c.2) | _ => None end
           | _ => None
           end
  end.
Definition take_turn (i : nat) (t : turn) (c : pool) : option pool :=
  match t, c.2 !! i with
  | Call o, Some (Idle held) => match remove_all (uses L o) held with Some rest => Some (c.1, <[i := Running o c.1 (code L o) rest]> c.2) | None => None end
  | Go n, _ => go n i c
  | Answer, Some (Running o b (Ret r) held) => Some (c.1, <[i := Idle (gives L o r ++ held)]> c.2)
  | Hand j x, Some (Idle held) =>
      match c.2 !! j, list_remove x held with
      | Some (Idle held'), Some rest => if decide (i = j) then None else Some (c.1, <[i := Idle rest]> (<[j := Idle (x :: held')]> c.2))
      | _, _ => None
      end
  | _, _ => None
  end.
Fixpoint sched (l : list (nat * turn)) (c : pool) : option pool :=
  match l with [] => Some c | (i, t) :: l => match take_turn i t c with Some c => sched l c | None => None end end.
Definition turn_allowed (t : nat * turn) : Prop := match t.2 with Call o => allowed L o | _ => True end.

Lemma remove_all_perm used held rest : remove_all used held = Some rest -> held ≡ₚ used ++ rest.
Proof.
  revert held. induction used as [|x used IH]; simpl; intros held E; [by injection E as ->|]. destruct (list_remove x held) as [held'|] eqn:E'; [|done].
  apply list_remove_Some in E'. rewrite E', (IH _ E). done.
Qed.
Lemma go_steps n i c0 c c' : pool_steps L c0 c -> go n i c = Some c' -> pool_steps L c0 c'.
Proof.
  revert c. induction n as [|n IH]; simpl; intros c Hc E; [by injection E as <-|]. destruct c as [s ts]. simpl in E.
  destruct (ts !! i) as [[?|o b [r|X m k] held]|] eqn:Ei; try done. destruct (m s) as [[x s']| |] eqn:Em; try done. eapply IH; [|exact E]. eapply steps_step; [exact Hc|]. by eapply step_run.
Qed.
Lemma sched_steps l c0 c c' : pool_steps L c0 c -> Forall turn_allowed l -> sched l c = Some c' -> pool_steps L c0 c'.
Proof.
  revert c. induction l as [|[i t] l IH]; simpl; intros c Hc Hal E; [by injection E as <-|]. apply Forall_cons in Hal as [Ha Hal]. destruct (take_turn i t c) as [c1|] eqn:E1; [|done]. eapply IH; [|exact Hal|exact E]. clear IH E.
  destruct c as [s ts]. destruct t as [o|n| |j x]; simpl in E1.
  - destruct (ts !! i) as [[held|]|] eqn:Ei; try done. destruct (remove_all (uses L o) held) as [rest|] eqn:Er; [|done]. injection E1 as <-. eapply steps_step; [exact Hc|]. eapply step_call; [done|done|]. by apply remove_all_perm.
  - by eapply go_steps.
  - destruct (ts !! i) as [[held|o b [r|] held]|] eqn:Ei; try done. injection E1 as <-. eapply steps_step; [exact Hc|]. by eapply step_answer.
  - destruct (ts !! i) as [[held|]|] eqn:Ei; try done. destruct (ts !! j) as [[held'|]|] eqn:Ej; try done. destruct (list_remove x held) as [rest|] eqn:Er; [|done]. destruct (decide (i = j)) as [|Hij]; [done|]. injection E1 as <-.
    eapply steps_step; [exact Hc|]. eapply step_hand; [done|done|done|]. by apply list_remove_Some.
Qed.
Lemma sched_reaches l c0 (P : pool -> Prop) : Forall turn_allowed l -> match sched l c0 with Some c => P c | None => False end -> exists c, pool_steps L c0 c /\ P c.
Proof. intros Hal HP. destruct (sched l c0) as [c|] eqn:E; [|destruct HP]. exists c. split; [|exact HP]. eapply sched_steps; [apply steps_nil|exact Hal|exact E]. Qed.
End sched.
Arguments turn : clear implicits.
