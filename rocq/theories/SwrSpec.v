(** What one call of the synchronous wrapper does, in terms of what its caller, the copy and free functions and the asynchronous function see. Histories are newest first. *)
From Verif Require Import Common SwrModel.
Local Open Scope Z_scope.

(** The values that the callback was given, once it was called *)
Fixpoint given (h : list event) : option (list Z) := match h with [] => None | Called _ (Callback vals) :: _ => Some vals | _ :: h => given h end.
(** What out argument k holds; the out arguments copied and not freed; what the asynchronous function answered; what the wrapper answered *)
Fixpoint holds (k : nat) (h : list event) : option Z :=
  match h with
  | [] => None
  | Assigned j v :: h | Copied j v :: h => if decide (j = k) then Some v else holds k h
  | Freed j :: h => if decide (j = k) then None else holds k h
  | _ :: h => holds k h
  end.
Fixpoint live (h : list event) : list nat := match h with [] => [] | Copied k _ :: h => live h ++ [k] | Freed k :: h => filter (.≠ k) (live h) | _ :: h => live h end.
Fixpoint answered (h : list event) : option Z := match h with [] => None | Attempt r :: _ => Some r | _ :: h => answered h end.
Fixpoint answers (h : list event) : list result := match h with [] => [] | Returned _ _ (Answer r _) :: h => r :: answers h | _ :: h => answers h end.
Definition copy_failed (h : list event) : Prop := exists k, NotCopied k ∈ h.

Definition event_ok (C : config) (e : event) (before : list event) : Prop :=
  match e with
  | Attempt _ => answered before = None
  | Assigned k v => answers before = [] /\ custom C !! k = Some false /\ exists vals, given before = Some vals /\ vals !! k = Some v
  | Copied k v => answers before = [] /\ custom C !! k = Some true /\ k ∉ live before /\ ~ copy_failed before /\ exists vals, given before = Some vals /\ vals !! k = Some v
  | NotCopied k => answers before = [] /\ custom C !! k = Some true /\ ~ copy_failed before
  | Freed k => answers before = [] /\ k ∈ live before /\ copy_failed before
  | Returned i (Sync h r ps) a =>
    match a with
    | Answer INVALID_ARGS v => h && r && forallb id ps = false /\ v = None /\ answered before = None
    | Answer x v => h && r && forallb id ps = true /\ v = answered before /\
      match x with
      | OK => v = Some (expected_return C) /\ ~ copy_failed before /\
              exists vals, given before = Some vals /\ (forall k, (k < length (custom C))%nat -> exists y, vals !! k = Some y /\ holds k before = Some y)
      | CALL_ERROR => v <> Some (expected_return C) /\ given before = None
      | COPY_ARG_ERROR => v = Some (expected_return C) /\ copy_failed before /\ live before = []
      | _ => False
      end
    | Void => False
    end
  | _ => True
  end.
Fixpoint all_ok (C : config) (h : list event) : Prop := match h with [] => True | e :: h => event_ok C e h /\ all_ok C h end.
