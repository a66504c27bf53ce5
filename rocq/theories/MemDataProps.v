(** Property theorems for src/memory_data.c (C04). *)
From Verif Require Import Common Block MemDataModel MemDataSpec MemDataProofs.
Local Open Scope Z_scope.
Local Open Scope cmonad_scope.

(** C04: writing a value of each width stores its big-endian bytes at the destination and changes no other byte. *)
Theorem C04_writes_big_endian :
  forall (p : nat) (b : block) (v : Z),
    ((p + 1 <= length b)%nat -> 0 <= v < 2 ^ 8 -> write_uint8_t p v b = Done (tt, put_at p (be_bytes 1 v) b)) /\
    ((p + 2 <= length b)%nat -> 0 <= v < 2 ^ 16 -> write_uint16_t p v b = Done (tt, put_at p (be_bytes 2 v) b)) /\
    ((p + 4 <= length b)%nat -> 0 <= v < 2 ^ 32 -> write_uint32_t p v b = Done (tt, put_at p (be_bytes 4 v) b)) /\
    ((p + 8 <= length b)%nat -> 0 <= v < 2 ^ 64 -> write_uint64_t p v b = Done (tt, put_at p (be_bytes 8 v) b)) /\
    ((p + 1 <= length b)%nat -> - 2 ^ 7 <= v < 2 ^ 7 -> write_int8_t p v b = Done (tt, put_at p (be_bytes 1 v) b)) /\
    ((p + 2 <= length b)%nat -> - 2 ^ 15 <= v < 2 ^ 15 -> write_int16_t p v b = Done (tt, put_at p (be_bytes 2 v) b)) /\
    ((p + 4 <= length b)%nat -> - 2 ^ 31 <= v < 2 ^ 31 -> write_int32_t p v b = Done (tt, put_at p (be_bytes 4 v) b)) /\
    ((p + 8 <= length b)%nat -> - 2 ^ 63 <= v < 2 ^ 63 -> write_int64_t p v b = Done (tt, put_at p (be_bytes 8 v) b)).
Proof. exact writes_ok. Qed.
Print Assumptions C04_writes_big_endian.

(** C04: reading each width returns the big-endian (two's complement for the signed types) value of the bytes there. *)
Theorem C04_reads_big_endian :
  forall (p : nat) (b : block) (l : bytes),
    all_bytes l -> has_at p l b ->
    (length l = 1%nat -> read_uint8_t p b = Done (be_value l, b) /\ read_int8_t p b = Done (be_signed l, b)) /\
    (length l = 2%nat -> read_uint16_t p b = Done (be_value l, b) /\ read_int16_t p b = Done (be_signed l, b)) /\
    (length l = 4%nat -> read_uint32_t p b = Done (be_value l, b) /\ read_int32_t p b = Done (be_signed l, b)) /\
    (length l = 8%nat -> read_uint64_t p b = Done (be_value l, b) /\ read_int64_t p b = Done (be_signed l, b)) /\
    (length l = 16%nat -> read_uuid_t p b = Done (l, b)).
Proof. exact reads_ok. Qed.
Print Assumptions C04_reads_big_endian.

(** C04: reading back what was written returns the value, for every value of every width. *)
Theorem C04_round_trip :
  forall (p : nat) (b : block) (v : Z),
    ((p + 1 <= length b)%nat -> 0 <= v < 2 ^ 8 -> exists b', (write_uint8_t p v ;;; read_uint8_t p) b = Done (v, b')) /\
    ((p + 2 <= length b)%nat -> 0 <= v < 2 ^ 16 -> exists b', (write_uint16_t p v ;;; read_uint16_t p) b = Done (v, b')) /\
    ((p + 4 <= length b)%nat -> 0 <= v < 2 ^ 32 -> exists b', (write_uint32_t p v ;;; read_uint32_t p) b = Done (v, b')) /\
    ((p + 8 <= length b)%nat -> 0 <= v < 2 ^ 64 -> exists b', (write_uint64_t p v ;;; read_uint64_t p) b = Done (v, b')) /\
    ((p + 1 <= length b)%nat -> - 2 ^ 7 <= v < 2 ^ 7 -> exists b', (write_int8_t p v ;;; read_int8_t p) b = Done (v, b')) /\
    ((p + 2 <= length b)%nat -> - 2 ^ 15 <= v < 2 ^ 15 -> exists b', (write_int16_t p v ;;; read_int16_t p) b = Done (v, b')) /\
    ((p + 4 <= length b)%nat -> - 2 ^ 31 <= v < 2 ^ 31 -> exists b', (write_int32_t p v ;;; read_int32_t p) b = Done (v, b')) /\
    ((p + 8 <= length b)%nat -> - 2 ^ 63 <= v < 2 ^ 63 -> exists b', (write_int64_t p v ;;; read_int64_t p) b = Done (v, b')).
Proof. exact round_trips_ok. Qed.
Print Assumptions C04_round_trip.

Theorem C04_uuid_round_trip :
  forall (p : nat) (b : block) (u : bytes),
    length u = 16%nat -> (p + 16 <= length b)%nat ->
    (write_uuid_t p u ;;; read_uuid_t p) b = Done (u, put_at p u b).
Proof. exact uuid_round_trip_ok. Qed.
Print Assumptions C04_uuid_round_trip.

(** Concrete cases: an uninitialised block, and negative numbers. *)
Example ex_write : write_uint32_t 1 16909060 (fresh_block 6)
  = Done (tt, [None; Some 1; Some 2; Some 3; Some 4; None]).
Proof. vm_compute. reflexivity. Qed.
Example ex_neg : be_bytes 4 (-2) = [255; 255; 255; 254] /\ be_signed [255; 255; 255; 254] = -2 /\ has_at 1 [128; 5] [None; Some 128; Some 5].
Proof.
  repeat split. intros i v. destruct i as [|[|i]]; simpl; [by intros [= <-]|by intros [= <-]|done].
Qed.
