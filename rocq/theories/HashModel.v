(** hash_compute_hash (src/hash.cpp). MurmurHash2 is in deps/, which is absent: an arbitrary function of the bytes it is given, their number and the seed. *)
From Verif Require Import Common.
Local Open Scope cm.
Local Open Scope Z_scope.

(** (int)length *)
Definition to_int (z : Z) : Z := (z + 2147483648) mod UINT32_MOD - 2147483648.
(** The call of MurmurHash2: it reads the first n bytes at the pointer; a negative number of bytes makes no sense *)
Definition call_murmur (MurmurHash2 : bytes -> Z -> Z -> Z) (buffer : bytes) (n seed : Z) : M unit Z :=
  if (n <? 0) || (Z.of_nat (length buffer) <? n) then undef else ret (MurmurHash2 (take (Z.to_nat n) buffer) n seed).
(** hash.cpp:12-39. [hash]: is the pointer not NULL. Result: is it 0, and what was stored in *hash *)
Definition hash_compute_hash (MurmurHash2 : bytes -> Z -> Z -> Z) (buffer : option bytes) (length : Z) (hash : bool) : M unit (bool * option Z) :=
  match buffer with
  | None => ret (false, None)
  | Some l =>
    if (length =? 0) || negb hash || (length >=? INT32_MAX) then ret (false, None)
    else let* h := call_murmur MurmurHash2 l (to_int length) 0 in ret (true, Some h)
  end.
