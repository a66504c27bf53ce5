(** Property theorems for src/sliding_window_average_by_count.c (C08). *)
From Coq Require Import SpecFloat.
From Verif Require Import Common Block SlidingModel SlidingSpec SlidingProofs.
Local Open Scope Z_scope.

(** C08: for every window size and every sequence of added values whose sums fit in int64_t and that is shorter than
    2^31, every add succeeds and get returns the average of exactly the last [window_count] values (0.0 before any). *)
Theorem C08_average_of_last_window :
  forall wc h vs, sliding_window_average_by_count_create true true wc = Some h -> wc < 2 ^ 31 -> no_overflow (Z.to_nat wc) vs ->
    exists h', adds vs (Some h) = Done (tt, Some h') /\
      sliding_window_average_by_count_get (Some h') true = Some (average (window (Z.to_nat wc) vs)) /\
      forall v r, no_overflow (Z.to_nat wc) (vs ++ [v]) -> sliding_window_average_by_count_add v (Some h') = r ->
        exists h'', r = Done (0, Some h'').
Proof. exact average_ok. Qed.
Print Assumptions C08_average_of_last_window.

(** C08: the restriction is exact: the first add that leaves it is undefined behaviour. *)
Theorem C08_overflow_is_undefined :
  forall wc h vs v, sliding_window_average_by_count_create true true wc = Some h -> wc < 2 ^ 31 ->
    no_overflow (Z.to_nat wc) vs -> ~ no_overflow (Z.to_nat wc) (vs ++ [v]) -> adds (vs ++ [v]) (Some h) = Undef.
Proof. exact overflow_undef. Qed.
Print Assumptions C08_overflow_is_undefined.

(** C08, finding: for every window, 2^31 additions (of zeros, even) overflow next_available_slot. *)
Theorem C08_unbounded_use_refuted :
  forall wc h, sliding_window_average_by_count_create true true wc = Some h -> wc < 2 ^ 31 ->
    exists vs, Forall (fun v => v = 0) vs /\ Z.of_nat (length vs) = 2 ^ 31 /\ adds vs (Some h) = Undef.
Proof. exact counter_overflow. Qed.
Print Assumptions C08_unbounded_use_refuted.

(** C08: create succeeds exactly for a positive window and when its allocations do; NULL handles and out pointers are refused. *)
Theorem C08_create_and_null_args :
  (forall a l wc, (exists h, sliding_window_average_by_count_create a l wc = Some h) <-> 1 <= wc /\ a = true /\ l = true) /\
  (forall v, sliding_window_average_by_count_add v None = Done (1, None)) /\
  (forall ok, sliding_window_average_by_count_get None ok = None) /\ (forall h, sliding_window_average_by_count_get (Some h) false = None).
Proof.
  repeat split; try done; intros.
  - unfold sliding_window_average_by_count_create in *. repeat case_match; destruct H; try done; lia.
  - destruct H as [? H]. unfold sliding_window_average_by_count_create in H. by destruct (wc <? 1), a.
  - destruct H as [? H]. unfold sliding_window_average_by_count_create in H. by destruct (wc <? 1), a, l.
  - destruct H as (H&->&->). unfold sliding_window_average_by_count_create. destruct (Z.ltb_spec wc 1); [lia|]. simpl. eauto.
Qed.
Print Assumptions C08_create_and_null_args.

(** Window 3 after adding 10, 20, 30, 41: (20+30+41)/3 rounded to nearest = 0x1.e555555555555p+4. *)
Example ex_window3 :
  exists h h', sliding_window_average_by_count_create true true 3 = Some h /\ no_overflow 3 [10; 20; 30; 41] /\
    adds [10; 20; 30; 41] (Some h) = Done (tt, Some h') /\
    sliding_window_average_by_count_get (Some h') true = Some (S754_finite false 8538074293556565 (-48)).
Proof.
  eexists _, _. split; [reflexivity|]. split; [|split; vm_compute; reflexivity].
  split; [vm_compute; reflexivity|]. intros i v Hv. do 4 (destruct i as [|i]; [simpl in Hv; simplify_eq; split; [unfold sum_list; simpl; lia|]; intros old Hw Ho; simpl in *; simplify_eq; lia|]). done.
Qed.
