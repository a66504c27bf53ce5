(** Property theorems for src/filename_helper.c (C27). *)
From Verif Require Import Common Block CMem CStr CStrFacts Sprintf FilenameModel FilenameSpec.
From Verif Require FilenameProofs.

(** C27, for path components separated by backslashes and names of at most INT_MAX characters: the result is the same directory part followed by the final component with
    the suffix inserted before its last '.', or appended if it has none. It is a new string; NULL only when an allocation failed or the
    result would be longer than INT_MAX. (The strings may be the caller's or on the heap.) Missing: '/' as a separator, for which the property is false, see below. *)
Theorem C27_append_suffix_partial :
  forall f x lf lx s, src_is s f lf -> src_is s x lx -> (Z.of_nat (length lf) <= INT32_MAX)%Z ->
    exists dir name name' r s', splits backslash lf dir name /\ with_suffix name lx name' /\
      filename_append_suffix (Some f) (Some x) s = Done (r, s') /\ new_string (dir ++ name') s r s'.
Proof. exact FilenameProofs.append_ok. Qed.
Print Assumptions C27_append_suffix_partial.

(** C27: NULL arguments are refused. *)
Theorem C27_null_args : forall x s, filename_append_suffix None x s = Done (None, s) /\ filename_append_suffix x None s = Done (None, s).
Proof. intros [x|] s; done. Qed.
Print Assumptions C27_null_args.

(** C27, finding: with '/' as a separator the property is false: the suffix is put into the name of a directory.
    filename_append_suffix("/d.x/f", "Z") is "/dZ.x/f". *)
Definition slash_name : bytes := [47; 100; 46; 120; 47; 102]%Z.
Theorem C27_slash_refuted :
  splits both_slashes slash_name [47; 100; 46; 120; 47]%Z [102%Z] /\ with_suffix [102%Z] [90%Z] [102; 90]%Z /\
  match filename_append_suffix (Some (CExt (slash_name ++ [0%Z]))) (Some (CExt [90; 0]%Z)) (St ∅ ∅ [] 0) with
  | Done (Some r, s) => mem s !! r = Some (bytes_block [47; 100; 90; 46; 120; 47; 102; 0]%Z)
  | _ => False
  end.
Proof.
  split; [|split].
  - split; [done|]. split; [right; exists [47; 100; 46; 120]%Z, 47%Z; split; [done|]; unfold both_slashes; set_solver|]. repeat constructor. unfold both_slashes. set_solver.
  - right. split; [set_solver|done].
  - vm_compute. reflexivity.
Qed.
Print Assumptions C27_slash_refuted.

(** C27, finding: names of 2^32 characters and more are cut, because a length is converted to int. *)
Theorem C27_very_long_name_refuted :
  exists lf s r, zfree lf /\ 92%Z ∉ lf /\ (4294967296 < Z.of_nat (length lf))%Z /\
    filename_append_suffix (Some (CExt (lf ++ [0%Z]))) (Some (CExt [120; 0]%Z)) (St ∅ ∅ [] 0) = Done (Some r, s) /\ mem s !! r = Some (bytes_block [120; 46; 0]%Z).
Proof. exact FilenameProofs.long_name_lost. Qed.
Print Assumptions C27_very_long_name_refuted.

(** "c:\a.b\f.e.t" and "c:\a.b\f" with the suffix "_1". *)
Definition dir1 : bytes := [99; 58; 92; 97; 46; 98; 92]%Z.
Example ex_append :
  match filename_append_suffix (Some (CExt (dir1 ++ [102; 46; 101; 46; 116; 0]%Z))) (Some (CExt [95; 49; 0]%Z)) (St ∅ ∅ [] 0) with
  | Done (Some r, s) => mem s !! r = Some (bytes_block (dir1 ++ [102; 46; 101; 95; 49; 46; 116; 0]%Z))
  | _ => False
  end /\
  match filename_append_suffix (Some (CExt (dir1 ++ [102; 0]%Z))) (Some (CExt [95; 49; 0]%Z)) (St ∅ ∅ [] 0) with
  | Done (Some r, s) => mem s !! r = Some (bytes_block (dir1 ++ [102; 95; 49; 0]%Z))
  | _ => False
  end /\
  match filename_append_suffix (Some (CExt (dir1 ++ [102; 0]%Z))) (Some (CExt [95; 49; 0]%Z)) (St ∅ ∅ [false] 0) with
  | Done (None, s) => mem s !! 1%positive = None /\ fails s = 1
  | _ => False
  end.
Proof. vm_compute. repeat split. Qed.
