(** Property C51: the copy and free handlers of async_type_helper. *)
From Verif Require Import Common CbaModel Tally CbaSpec CbaFacts CbaProofs CbaCalls CbaEnd CbaSlice CbaBalance CbaProps AthModel AthSpec AthProofs.
Local Open Scope Z_scope.

(** C51, strings, arrays of handles and handles of arrays: in every history of these calls and of all the calls of constbuffer_array, a copy that is made has the value of its source, in memory of its own
    and with references of its own; a copy fails exactly when its arguments are not valid or memory runs out, and then nothing has changed; freeing a copy gives back exactly what the copy took.
    An array has the references the user holds, those stored in their blocks, and one for each view of it; when the user has nothing any more, nothing is allocated any more. *)
Theorem C51_copy_and_free : exists R, implements R /\
  (forall t s o, R t s -> may t o -> exists r s' t', perform o s = Done (r, s') /\ does (fails s < fails s')%nat t o r t' /\ R t' s') /\
  (forall t s a n, R t s -> nodes s !! a = Some n ->
     nref n = (ours t a + tally (fun _ c => occ a (arrs_in c)) (blocks s) + tally (fun _ v => if decide (custom_free v = FreeView a) then 1 else 0) (nodes s))%nat) /\
  (forall t s, R t s -> (forall a, ours t a = 0%nat) -> mem t = ∅ -> nodes s = ∅ /\ blocks s = ∅).
Proof.
  exists R. split; [split; [apply R_start|]; intros t s o HR Ho; by apply sim_all|]. split; [|split].
  - intros t s o HR Hm. by apply perform_ok.
  - intros t s a n HR Ha. rewrite (r_arr _ _ HR a n Ha).
    assert (tally (fun _ v => view_of a v) (nodes s) = tally (fun _ v => if decide (custom_free v = FreeView a) then 1 else 0) (nodes s))%nat as ->; [|lia].
    apply tally_ext. intros x v _. unfold view_of. destruct (custom_free v) as [| |p]; try done. repeat case_decide; naive_solver.
  - intros t s HR Ho Hm. destruct (all_gone t s HR Ho) as [Hn Hb]; [rewrite Hm; done|]. by rewrite Hb.
Qed.
Print Assumptions C51_copy_and_free.

(** C51, handles of the type THANDLE: they are copied and freed like the handles of arrays, if the objects behind them are counted. Shown for the handles of arrays in the place of the THANDLEs. *)
Theorem C51_thandle : exists R, implements R /\
  let inc h := constbuffer_array_inc_ref (Some h) in
  let dec h := constbuffer_array_dec_ref (Some h) in
  (forall t s dest h, R t s -> maybe_held t h -> exists r s' t', thandle_copy inc dest h s = Done (r, s') /\ R t' s' /\ fails s' = fails s /\
     if dest then r = (true, Some h) /\ same (match h with None => t | Some a => get_arr a t end) t' else r = (false, None) /\ same t t') /\
  (forall t s h, R t s -> maybe_held t h -> exists s' t', thandle_free inc dec h s = Done (tt, s') /\ R t' s' /\ same (match h with None => t | Some a => put_arr a t end) t').
Proof.
  exists R. split; [split; [apply R_start|]; intros t s o HR Ho; by apply sim_all|]. split.
  - intros t s dest h HR Hh. destruct dest; [|by exists (false, None), s, t]. cbn [thandle_copy]. destruct h as [a|].
    + destruct Hh as [l Hl]. destruct (inc_ok t s a l HR Hl) as (s' & E & HR' & Hf & _). exists (true, Some (Some a)), s', (get_arr a t). split_and!; [|done|done|done|apply same_refl].
      unfold THANDLE_INITIALIZE. erewrite bind_done by (cbn [count_one constbuffer_array_inc_ref]; erewrite bind_done by exact E; reflexivity). done.
    + by exists (true, Some None), s, t.
  - intros t s h HR Hh. destruct h as [a|]; [|by exists s, t]. destruct Hh as (l & Ha & _). destruct (dec_top t s a HR Ha) as (s' & E & HR1 & Hf). exists s', (put_arr a t).
    split_and!; [|done|apply same_refl]. cbn [thandle_free]. unfold THANDLE_ASSIGN. cbn [count_one]. unfold bind, ret. by rewrite E.
Qed.
Print Assumptions C51_thandle.

(** C51, values that are copied by assignment: whatever the type *)
Theorem C51_values : forall S A (s : S) (src : A) dst,
  value_copy dst src s = Done ((if dst then (true, Some src) else (false, None)), s) /\ value_free src s = Done (tt, s).
Proof. by intros S A s src []. Qed.
Print Assumptions C51_values.

(** ** Examples *)
Local Open Scope cm.
Fixpoint perform_all (l : list call) : M heap (list answer) := match l with [] => ret [] | o :: l => let* r := perform o in let* rs := perform_all l in ret (r :: rs) end.
Local Close Scope cm.
(** An array of a buffer, twice in the caller's memory with a NULL between; it is copied, and the copy is copied; the references are counted, and everything goes. *)
Example ex_handles :
  exists s, run_all [Buffer [7]; Create (Some [0%nat]) 1; Dec 0] (nothing []) = Done (tt, s) /\
  (exists s', perform_all [HandlesCopy true (Some (Own [Some 0%nat; None; Some 0%nat])) 3; HandlesCopy true (Some (Block 0)) 3; HandleCopy true (Some 0%nat); HandlesFree (Some 0%nat) 3] s
     = Done ([Copied (true, Some (Some 0%nat)); Copied (true, Some (Some 1%nat)); Copied (true, Some (Some 0%nat)); Freed], s') /\
     nref <$> nodes s' !! 0%nat = Some 4%nat /\ blocks s' !! 1%nat = Some [Some (Arr 0%nat); Some (Word 0); Some (Arr 0%nat)] /\
     exists s'', perform_all [HandleFree (Some 0%nat); HandleFree (Some 0%nat); HandlesFree (Some 1%nat) 3] s' = Done ([Freed; Freed; Freed], s'') /\ (size (nodes s''), size (blocks s''), refs s'' 0%nat) = (0, 0, 0)%nat).
Proof. eexists. split; [vm_compute; reflexivity|]. eexists. split_and!; [vm_compute; reflexivity|vm_compute; reflexivity|vm_compute; reflexivity|]. eexists. split; vm_compute; reflexivity. Qed.
(** A string is copied, its copy is copied; then memory runs out. *)
Example ex_text :
  exists s, perform_all [TextCopy true (Some (Own [104; 105; 0; 33])); TextCopy true (Some (Block 0)); TextCopy true None; TextCopy false (Some (Block 0)); TextCopy true (Some (Block 1)); TextFree (Some 0%nat)]
      (nothing [true; true; false]) =
    Done ([Copied (true, Some (Some 0%nat)); Copied (true, Some (Some 1%nat)); Copied (true, Some None); Copied (false, None); Copied (false, Some None); Freed], s) /\
    map_to_list (blocks s) = [(1%nat, [Some (Byte 104); Some (Byte 105); Some (Byte 0)])].
Proof. eexists. split; vm_compute; reflexivity. Qed.
