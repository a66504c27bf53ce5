(** Model of src/memory_data.c. The memory pointed to by [source] / [destination] is a block and an offset into it.
    Shifts of [int] operands whose result does not fit (source[0] << 24 for a byte >= 128, memory_data.c:31,146,156) are
    given the two's complement result all supported compilers give (strictly, C leaves them undefined). *)
From Verif Require Import Common Block.
Local Open Scope Z_scope.
Local Open Scope cmonad_scope.

(** (uint8_t)x, (uint16_t)x *)
Definition u8 (z : Z) : Z := z mod 256.
Definition u16 (z : Z) : Z := z mod 65536.

(** memory_data.c:12-16 read_uint8_t *)
Definition read_uint8_t (p : nat) : M block Z := rd p.

(** memory_data.c:18-25 read_uint16_t *)
Definition read_uint16_t (p : nat) : M block Z :=
  let* s0 := rd (p + 0) in let* s1 := rd (p + 1) in
  ret (u16 (i32 (Z.shiftl s0 8) + s1)).

(** memory_data.c:27-36 read_uint32_t *)
Definition read_uint32_t (p : nat) : M block Z :=
  let* s0 := rd (p + 0) in let* s1 := rd (p + 1) in let* s2 := rd (p + 2) in let* s3 := rd (p + 3) in
  ret (u32 (i32 (Z.shiftl s0 24) + i32 (Z.shiftl s1 16) + i32 (Z.shiftl s2 8) + s3)).

(** memory_data.c:38-51 read_uint64_t *)
Definition read_uint64_t (p : nat) : M block Z :=
  let* s0 := rd (p + 0) in let* s1 := rd (p + 1) in let* s2 := rd (p + 2) in let* s3 := rd (p + 3) in
  let* s4 := rd (p + 4) in let* s5 := rd (p + 5) in let* s6 := rd (p + 6) in let* s7 := rd (p + 7) in
  ret (u64 (u64 (Z.shiftl s0 56) + u64 (Z.shiftl s1 48) + u64 (Z.shiftl s2 40) + u64 (Z.shiftl s3 32) +
            u64 (Z.shiftl s4 24) + u64 (Z.shiftl s5 16) + u64 (Z.shiftl s6 8) + s7)).

(** memory_data.c:53-57 write_uint8_t *)
Definition write_uint8_t (p : nat) (value : Z) : M block unit := wr (p + 0) value.

(** memory_data.c:59-64 write_uint16_t *)
Definition write_uint16_t (p : nat) (value : Z) : M block unit :=
  wr (p + 0) (Z.land (Z.shiftr value 8) 255) ;;;
  wr (p + 1) (Z.land value 255).

(** memory_data.c:66-73 write_uint32_t *)
Definition write_uint32_t (p : nat) (value : Z) : M block unit :=
  wr (p + 0) (Z.land (Z.shiftr value 24) 255) ;;;
  wr (p + 1) (Z.land (Z.shiftr value 16) 255) ;;;
  wr (p + 2) (Z.land (Z.shiftr value 8) 255) ;;;
  wr (p + 3) (Z.land value 255).

(** memory_data.c:75-86 write_uint64_t *)
Definition write_uint64_t (p : nat) (value : Z) : M block unit :=
  wr (p + 0) (Z.land (Z.shiftr value 56) 255) ;;;
  wr (p + 1) (Z.land (Z.shiftr value 48) 255) ;;;
  wr (p + 2) (Z.land (Z.shiftr value 40) 255) ;;;
  wr (p + 3) (Z.land (Z.shiftr value 32) 255) ;;;
  wr (p + 4) (Z.land (Z.shiftr value 24) 255) ;;;
  wr (p + 5) (Z.land (Z.shiftr value 16) 255) ;;;
  wr (p + 6) (Z.land (Z.shiftr value 8) 255) ;;;
  wr (p + 7) (Z.land value 255).

(** memory_data.c:88-92 write_int8_t: conversion of int8_t to unsigned char *)
Definition write_int8_t (p : nat) (value : Z) : M block unit := wr (p + 0) (u8 value).

(** memory_data.c:94-99 write_int16_t (>> of a negative value is arithmetic) *)
Definition write_int16_t (p : nat) (value : Z) : M block unit :=
  wr (p + 0) (Z.land (Z.shiftr value 8) 255) ;;;
  wr (p + 1) (Z.land value 255).

(** memory_data.c:101-108 write_int32_t *)
Definition write_int32_t (p : nat) (value : Z) : M block unit :=
  wr (p + 0) (Z.land (Z.shiftr value 24) 255) ;;;
  wr (p + 1) (Z.land (Z.shiftr value 16) 255) ;;;
  wr (p + 2) (Z.land (Z.shiftr value 8) 255) ;;;
  wr (p + 3) (Z.land value 255).

(** memory_data.c:110-121 write_int64_t *)
Definition write_int64_t (p : nat) (value : Z) : M block unit :=
  wr (p + 0) (Z.land (Z.shiftr value 56) 255) ;;;
  wr (p + 1) (Z.land (Z.shiftr value 48) 255) ;;;
  wr (p + 2) (Z.land (Z.shiftr value 40) 255) ;;;
  wr (p + 3) (Z.land (Z.shiftr value 32) 255) ;;;
  wr (p + 4) (Z.land (Z.shiftr value 24) 255) ;;;
  wr (p + 5) (Z.land (Z.shiftr value 16) 255) ;;;
  wr (p + 6) (Z.land (Z.shiftr value 8) 255) ;;;
  wr (p + 7) (Z.land value 255).

(** memory_data.c:123-127 write_uuid_t: memcpy of the 16 bytes of the UUID_T *)
Definition write_uuid_t (p : nat) (value : bytes) : M block unit := wr_all p value.

(** memory_data.c:129-133 read_int8_t *)
Definition read_int8_t (p : nat) : M block Z := let* s0 := rd (p + 0) in ret (i8 s0).

(** memory_data.c:135-141 read_int16_t *)
Definition read_int16_t (p : nat) : M block Z :=
  let* s0 := rd (p + 0) in let* s1 := rd (p + 1) in
  ret (i16 (i32 (Z.shiftl s0 8) + s1)).

(** memory_data.c:143-151 read_int32_t *)
Definition read_int32_t (p : nat) : M block Z :=
  let* s0 := rd (p + 0) in let* s1 := rd (p + 1) in let* s2 := rd (p + 2) in let* s3 := rd (p + 3) in
  ret (i32 (Z.shiftl s0 24) + i32 (Z.shiftl s1 16) + i32 (Z.shiftl s2 8) + s3).

(** memory_data.c:153-165 read_int64_t *)
Definition read_int64_t (p : nat) : M block Z :=
  let* s0 := rd (p + 0) in let* s1 := rd (p + 1) in let* s2 := rd (p + 2) in let* s3 := rd (p + 3) in
  let* s4 := rd (p + 4) in let* s5 := rd (p + 5) in let* s6 := rd (p + 6) in let* s7 := rd (p + 7) in
  ret (i64 (Z.shiftl s0 56) + i64 (Z.shiftl s1 48) + i64 (Z.shiftl s2 40) + i64 (Z.shiftl s3 32) +
       i64 (Z.shiftl s4 24) + i64 (Z.shiftl s5 16) + i64 (Z.shiftl s6 8) + s7).

(** memory_data.c:167-171 read_uuid_t: memcpy of 16 bytes into the UUID_T *)
Definition read_uuid_t (p : nat) : M block bytes := rd_all p 16.
