(** What one call of the retry wrapper does, in terms of what the user's functions, the asynchronous function, the clock and the threadpool see. Histories are newest first. *)
From Verif Require Import Common RtwModel.
Local Open Scope Z_scope.

(** How the latest try went: the asynchronous function answered (in which thread), its callback was called, or it could not be scheduled again. *)
Inductive outcome := None_yet | Answered (r : Z) | Completed (outs : list Z) | Unscheduled.
Fixpoint latest (h : list event) : outcome :=
  match h with
  | [] => None_yet
  | Attempt _ r :: _ => Answered r
  | Called _ (Complete outs) :: _ => Completed outs
  | NotScheduled :: _ => Unscheduled
  | _ :: h => latest h
  end.
(** The number of sleeps, of calls of the user's callback; the reading of the clock since the latest try, if there was one; the first reading; the copies of arguments not yet freed; whether the context was freed; the timeout given to the wrapper *)
Fixpoint sleeps (h : list event) : nat := match h with [] => 0 | Slept _ :: h => S (sleeps h) | _ :: h => sleeps h end.
Fixpoint users (h : list event) : nat := match h with [] => 0 | User _ :: h => S (users h) | _ :: h => users h end.
Fixpoint reading (h : list event) : option Z := match h with [] | Attempt _ _ :: _ | Called _ (Complete _) :: _ => None | Read t :: _ => Some t | _ :: h => reading h end.
Fixpoint first_reading (h : list event) : option Z := match h with [] => None | Read t :: h => match first_reading h with None => Some t | t0 => t0 end | _ :: h => first_reading h end.
Fixpoint live (h : list event) : list nat := match h with [] => [] | Copied k :: h => live h ++ [k] | Freed k :: h => filter (.≠ k) (live h) | _ :: h => live h end.
Fixpoint allocations (h : list event) : nat := match h with [] => 0 | Allocated :: h => S (allocations h) | _ :: h => allocations h end.
Fixpoint context_freed (h : list event) : nat := match h with [] => 0 | FreedContext :: h => S (context_freed h) | _ :: h => context_freed h end.
Fixpoint timeout_of (h : list event) : Z := match h with [] => 0 | Called _ (Wrap _ _ _ _ t) :: _ => t | _ :: h => timeout_of h end.
(** The latest answer of the asynchronous function in thread i since i's latest call *)
Fixpoint last_by (i : nat) (h : list event) : option Z :=
  match h with [] => None | Attempt j r :: h => if decide (i = j) then Some r else last_by i h | Called j _ :: h => if decide (i = j) then None else last_by i h | _ :: h => last_by i h end.
(** What calls of the wrapper have answered *)
Fixpoint answers (h : list event) : list result := match h with [] => [] | Returned _ _ (Answer r _) :: h => r :: answers h | _ :: h => answers h end.

(** The sleep after n others, in milliseconds: 1, 2, 4, ..., and at most ten seconds. *)
Definition backoff_after (n : nat) : Z := Z.min (2 ^ Z.of_nat n) 10000.
(** By the latest reading of the clock (in nanoseconds), the next sleep would end after the timeout; would not. *)
Definition timed_out (h : list event) : Prop :=
  timeout_of h < UINT32_MAX /\ exists t t0, reading h = Some t /\ first_reading h = Some t0 /\ timeout_of h * 1000000 < t - t0 + backoff_after (sleeps h) * 1000000.
Definition in_time (h : list event) : Prop :=
  timeout_of h < UINT32_MAX -> exists t t0, reading h = Some t /\ first_reading h = Some t0 /\ t - t0 + backoff_after (sleeps h) * 1000000 <= timeout_of h * 1000000.
(** The latest try is to be followed by another. *)
Definition to_retry (C : config) (x : outcome) : Prop := match x with Answered r => r ∈ retry_sync C | Completed outs => exists v, outs !! enum C = Some v /\ v ∈ retry_async C | _ => False end.

(** Results can be compared. *)
Global Instance result_eq_dec : EqDecision result.
Proof. solve_decision. Defined.
Definition event_ok (C : config) (e : event) (before : list event) : Prop :=
  match e with
  | Attempt _ _ => context_freed before = 0%nat /\ users before = 0%nat /\ (latest before = None_yet \/ to_retry C (latest before)) /\
                   (* all arguments are there *) live before = omap (fun '(k, b) => if (b : bool) then Some k else None) (imap pair (custom C))
  | Slept b => b = backoff_after (sleeps before) /\ in_time before /\ exists r, latest before = Answered r /\ r ∈ retry_sync C
  | Scheduled => in_time before /\ exists outs, latest before = Completed outs /\ to_retry C (Completed outs)
  | User args =>
    users before = 0%nat /\ context_freed before = 0%nat /\
    ((latest before = Completed args /\ ~ to_retry C (Completed args)) \/
     (args = timeout_values C /\ to_retry C (latest before) /\ timed_out before) \/
     (args = error_values C /\ (latest before = Unscheduled \/ exists r, latest before = Answered r /\ r ∉ retry_sync C /\ r <> expected_return C)))
  | Copied k => k ∉ live before /\ custom C !! k = Some true
  | Freed k => k ∈ live before
  | FreedContext => context_freed before = 0%nat /\ live before = []
  | Allocated => allocations before = 0%nat
  | Returned i (Wrap h r p c t) a =>
    match a with
    | Answer INVALID_ARGS v => h && r && p && c = false /\ v = None
    | _ => h && r && p && c = true
    end /\
    match a with
    | Answer OK v => v = Some (expected_return C) /\ last_by i before = v
    | Answer INVALID_ARGS v => True
    | Answer ERROR v => NoMemory ∈ before /\ v = None
    | Answer COPY_ARG_ERROR v => (exists k, NotCopied k ∈ before) /\ v = None
    | Answer TIMEOUT v => v = last_by i before /\ (exists x, v = Some x /\ x ∈ retry_sync C) /\ timed_out before
    | Answer CALL_ERROR v => v = last_by i before /\ exists x, v = Some x /\ x ∉ retry_sync C /\ x <> expected_return C
    | Void => False
    end
  | _ => True
  end.
Fixpoint all_ok (C : config) (h : list event) : Prop := match h with [] => True | e :: h => event_ok C e h /\ all_ok C h end.
