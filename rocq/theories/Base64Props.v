(** Property theorems for src/azure_base64.c (C05, C06). *)
From Coq Require Import String.
From Verif Require Import Common Block Base64Model Base64Spec Base64Proofs.
Local Open Scope Z_scope.

(** C05: for every byte string, Azure_Base64_Encode_Bytes yields its RFC 4648 text (as a 0-terminated string that
    fills its allocation exactly) or, exactly when an allocation it needs fails, NULL. *)
Theorem C05_encode_bytes_is_rfc4648 :
  forall l malloc_ok new_ok, all_bytes l ->
    Azure_Base64_Encode_Bytes malloc_ok new_ok (Some l) (length l)
    = Done (if new_ok && (malloc_ok || bool_decide (l = [])) then Some (bytes_block (rfc4648 l ++ [0])) else None).
Proof. exact encode_bytes_ok. Qed.
Print Assumptions C05_encode_bytes_is_rfc4648.

Theorem C05_encode_buffer_is_rfc4648 :
  forall l malloc_ok new_ok, all_bytes l ->
    Azure_Base64_Encode malloc_ok new_ok (Some l) = Done (if malloc_ok && new_ok then Some (bytes_block (rfc4648 l ++ [0])) else None).
Proof. exact encode_buffer_ok. Qed.
Print Assumptions C05_encode_buffer_is_rfc4648.

(** C05: the text has 4*ceil(n/3) characters, and decoding it gives back exactly the original bytes. *)
Theorem C05_encoded_length : forall l, length (rfc4648 l) = ((length l + 2) / 3 * 4)%nat.
Proof. exact rfc_length. Qed.
Print Assumptions C05_encoded_length.

Theorem C05_decode_inverts_encode :
  forall l, all_bytes l -> Azure_Base64_Decode true true (Some (rfc4648 l ++ [0])) = Done (Some (bytes_block l)).
Proof. exact round_trip. Qed.
Print Assumptions C05_decode_inverts_encode.

(** C05: NULL in, NULL out. *)
Theorem C05_null_args :
  forall m n k, Azure_Base64_Encode_Bytes m n None k = Done None /\ Azure_Base64_Encode m n None = Done None /\
                Azure_Base64_Decode m n None = Done None.
Proof. intros m n k; repeat split. Qed.
Print Assumptions C05_null_args.

(** RFC 4648 section 10 test vectors: the specification really is base64. *)
Example ex_rfc_vectors :
  rfc4648 (codes "") = codes "" /\ rfc4648 (codes "f") = codes "Zg==" /\ rfc4648 (codes "fo") = codes "Zm8=" /\
  rfc4648 (codes "foo") = codes "Zm9v" /\ rfc4648 (codes "foob") = codes "Zm9vYg==" /\
  rfc4648 (codes "fooba") = codes "Zm9vYmE=" /\ rfc4648 (codes "foobar") = codes "Zm9vYmFy" /\
  rfc4648 [251; 255; 254] = codes "+//+" /\ all_bytes [251; 255; 254].
Proof.
  repeat (split; [vm_compute; reflexivity|]). unfold all_bytes, is_byte. repeat constructor; lia.
Qed.

(** C06: for every 0-terminated text and every allocation outcome, decoding stays inside the text and inside the
    buffer it allocated (it completes without undefined behaviour). *)
Theorem C06_decode_memory_safe :
  forall s new_ok build_ok, no_nul s -> exists r, Azure_Base64_Decode new_ok build_ok (Some (s ++ [0])) = Done r.
Proof. exact decode_safe. Qed.
Print Assumptions C06_decode_memory_safe.

(** C06: it fails exactly when the length is not a multiple of 4 or an allocation fails. *)
Theorem C06_decode_failures :
  forall s new_ok build_ok, no_nul s ->
    Azure_Base64_Decode new_ok build_ok (Some (s ++ [0])) = Done None <->
    (length s mod 4 <> 0)%nat \/ new_ok = false \/ (build_ok = false /\ s <> []).
Proof.
  intros s new_ok build_ok Hs. split; [|by apply decode_fail]. intros He.
  destruct (decide (length s mod 4 = 0)%nat) as [Hm|]; [|by left]. right. destruct new_ok; [right|by left].
  destruct build_ok; [by rewrite decode_exact in He|]. split; [done|]. by intros ->.
Qed.
Print Assumptions C06_decode_failures.

(** C06, what holds of every text: the returned buffer is the decoding of the leading alphabet characters followed
    by bytes nobody wrote. The full claim (no unwritten byte is returned) is refuted below. *)
Theorem C06_decode_exact_contents :
  forall s, no_nul s -> (length s mod 4 = 0)%nat ->
    Azure_Base64_Decode true true (Some (s ++ [0]))
    = Done (Some (bytes_block (digits_bytes (leading_digits s)) ++
                  replicate (length s / 4 * 3 - padding s - length (digits_bytes (leading_digits s))) None)).
Proof. exact decode_exact. Qed.
Print Assumptions C06_decode_exact_contents.

(** C06 for well-formed base64 text (alphabet characters, then at most two '='): every byte is determined. *)
Theorem C06_decode_determined_partial :
  forall s, no_nul s -> well_formed s ->
    Azure_Base64_Decode true true (Some (s ++ [0])) = Done (Some (bytes_block (digits_bytes (leading_digits s)))).
Proof. exact decode_wf. Qed.
Print Assumptions C06_decode_determined_partial.

(** C06 as stated is false of the code: "A===" decodes successfully to one byte that was never written. *)
Theorem C06_decode_determined_refuted :
  exists s b, no_nul s /\ Azure_Base64_Decode true true (Some (s ++ [0])) = Done (Some b) /\ None ∈ b.
Proof.
  exists (codes "A==="), [None]. split; [|split].
  - unfold no_nul. vm_compute. repeat constructor; discriminate.
  - vm_compute. reflexivity.
  - left.
Qed.
Print Assumptions C06_decode_determined_refuted.

Example ex_well_formed : well_formed (codes "Zm9vYg==") /\ no_nul (codes "Zm9vYg==") /\
  digits_bytes (leading_digits (codes "Zm9vYg==")) = codes "foob".
Proof.
  split; [|split]; [split; vm_compute; reflexivity| |vm_compute; reflexivity].
  unfold no_nul. vm_compute. repeat constructor; discriminate.
Qed.
