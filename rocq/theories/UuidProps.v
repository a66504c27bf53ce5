(** Property theorems for src/uuid_string.c (C07). *)
From Coq Require Import String.
From Verif Require Import Common Block Base64Spec UuidModel UuidSpec UuidProofs.
Local Open Scope Z_scope.

(** C07: for every array of characters that is 0-terminated or holds at least 36 characters, uuid_from_string stays inside
    the array and inside the 16-byte uuid; it answers OK, with exactly the bytes the text denotes, if the first 36
    characters are a uuid, and INVALID_DATA otherwise. *)
Theorem C07_from_string_decides_the_format :
  forall s uuid, all_bytes s -> (36 <= length s)%nat \/ 0 ∈ s -> length uuid = 16%nat ->
    match uuid_of_text s with
    | Some u => uuid_from_string (Some s) true uuid = Done (UUID_FROM_STRING_RESULT_OK, bytes_block u) /\ length u = 16%nat /\ all_bytes u
    | None => exists uuid', uuid_from_string (Some s) true uuid = Done (UUID_FROM_STRING_RESULT_INVALID_DATA, uuid') /\ length uuid' = 16%nat
    end.
Proof. exact from_string_ok. Qed.
Print Assumptions C07_from_string_decides_the_format.

(** C07: NULL arguments are rejected and nothing is written. *)
Theorem C07_from_string_null_args :
  forall s uuid, uuid_from_string None true uuid = Done (UUID_FROM_STRING_RESULT_INVALID_ARG, uuid) /\
                 uuid_from_string s false uuid = Done (UUID_FROM_STRING_RESULT_INVALID_ARG, uuid).
Proof. intros [s|] uuid; split; reflexivity. Qed.
Print Assumptions C07_from_string_null_args.

(** C07: uuid_to_string yields 36 characters, all of them lower-case hexadecimal digits or dashes, and a terminator, that denote the uuid... *)
Theorem C07_to_string_denotes :
  forall u, all_bytes u -> length u = 16%nat ->
    exists t, uuid_to_string true u = Some (t ++ [0]) /\ length t = 36%nat /\ Forall (fun c => c ∈ codes "0123456789abcdef-") t /\ uuid_of_text (t ++ [0]) = Some u.
Proof. exact to_string_text. Qed.
Print Assumptions C07_to_string_denotes.

(** ... so that parsing it gives the same uuid back, for all 2^128 of them. *)
Theorem C07_round_trip :
  forall u uuid, all_bytes u -> length u = 16%nat -> length uuid = 16%nat ->
    exists s, uuid_to_string true u = Some s /\ uuid_from_string (Some s) true uuid = Done (UUID_FROM_STRING_RESULT_OK, bytes_block u).
Proof. exact round_trip. Qed.
Print Assumptions C07_round_trip.

(** uuid_to_string fails exactly when sprintf_char does. *)
Theorem C07_to_string_failure : forall u ok, uuid_to_string ok u = None <-> ok = false.
Proof. intros u [|]; split; done. Qed.
Print Assumptions C07_to_string_failure.

Example ex_uuid : uuid_of_text (codes "8badf00D-0123-4567-89AB-cdefCDEF0001 and more") =
  Some [139; 173; 240; 13; 1; 35; 69; 103; 137; 171; 205; 239; 205; 239; 0; 1] /\
  uuid_of_text (codes "8badf00D-0123-4567-89AB-cdefCDEF000") = None /\ uuid_of_text (codes "8badf00D+0123-4567-89AB-cdefCDEF0001") = None /\
  uuid_to_string true [139; 173; 240; 13; 1; 35; 69; 103; 137; 171; 205; 239; 205; 239; 0; 1] = Some (codes "8badf00d-0123-4567-89ab-cdefcdef0001" ++ [0]).
Proof. repeat split; vm_compute; reflexivity. Qed.
