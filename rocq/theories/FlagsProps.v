(** Property theorems for inc/c_util/flags_to_string.h (C45). *)
From Verif Require Import Common Block CMem CStr Sprintf FlagsModel FlagsSpec.
From Verif Require FlagsProofs.
Local Open Scope Z_scope.

(** C45: for every declaration list and every value, FLAGS_TO_STRING makes a new string with the text [flags_text] describes, or answers NULL (an allocation failed, or the
    text is longer than INT_MAX). *)
Theorem C45_names_the_set_flags :
  forall ds v s, is_u32 v -> Forall (fun d => 0 <= d.1) ds ->
    exists t r s', flags_text ds v t /\ FLAGS_TO_STRING ds v s = Done (r, s') /\ new_string t s r s'.
Proof. exact FlagsProofs.flags_ok. Qed.
Print Assumptions C45_names_the_set_flags.

(** C45: what [flags_text] lists is determined by the declarations and the value; the bits of the listed flags and the remaining bits together are the value; and if the
    declared flags are disjoint, a flag is listed exactly when all its bits are set in the value. *)
Theorem C45_listed_and_unknown_make_the_value :
  forall fs v sel, selects fs v sel ->
    (forall sel', selects fs v sel' -> sel' = sel) /\
    Z.lor (listed_bits fs sel) (Z.ldiff v (listed_bits fs sel)) = v /\
    ((forall i j f g, i <> j -> fs !! i = Some f -> fs !! j = Some g -> Z.land f g = 0) ->
     forall i f b, fs !! i = Some f -> sel !! i = Some b -> (b = true <-> subset_of f v)).
Proof.
  intros fs v sel H. split; [intros sel' H'; by eapply FlagsProofs.selects_unique|]. split; [by apply FlagsProofs.bits_account|]. by apply FlagsProofs.selects_disjoint.
Qed.
Print Assumptions C45_listed_and_unknown_make_the_value.

(** A = 1, B = 6, C = 2: for 0x107 "A | B | UNKNOWN_FLAG(0x00000100)" (C's bit went to B); for 2 "C"; for 0 "". *)
Definition abc : decl := [(1, [65]); (6, [66]); (2, [67])].
Definition printed (v : Z) : option (option block) :=
  match FLAGS_TO_STRING abc v (St ∅ ∅ [] 0) with Done (Some r, s) => Some (mem s !! r) | _ => None end.
Example ex_flags :
  printed 263 = Some (Some (bytes_block [65; 32; 124; 32; 66; 32; 124; 32; 85; 78; 75; 78; 79; 87; 78; 95; 70; 76; 65; 71; 40; 48; 120; 48; 48; 48; 48; 48; 49; 48; 48; 41; 0])) /\
  printed 2 = Some (Some (bytes_block [67; 0])) /\ printed 0 = Some (Some (bytes_block [0])).
Proof. vm_compute. repeat split. Qed.
Example ex_selects : selects [1; 6; 2] 263 [true; true; false].
Proof.
  split; [done|]. assert (forall f v, 0 <= f -> Z.land v f = f -> subset_of f v) as Hs. { intros f v Hf E. apply FlagsProofs.subset_land; [done|]. by apply Z.eqb_eq. }
  intros [|[|[|i]]] f b Hf Hb; simpl in Hf, Hb; simplify_eq; split; intros H; try done; try (apply Hs; [lia|reflexivity]).
  by specialize (H 1 ltac:(lia) eq_refl).
Qed.
