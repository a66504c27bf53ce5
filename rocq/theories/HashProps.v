(** Property C52: hash_compute_hash. *)
From Verif Require Import Common HashModel.
Local Open Scope Z_scope.

(** C52: whatever the hash function. The buffer has at least [n] bytes, or is NULL; n is any size_t. The call succeeds exactly when no argument is NULL and 0 < n < INT_MAX; it stores the hash of
    exactly the first n bytes, with seed 0, and stores nothing when it fails. *)
Theorem C52_hash : forall MurmurHash2 buffer n hash, is_u64 n -> (forall l, buffer = Some l -> n <= Z.of_nat (length l)) ->
  exists ok stored, hash_compute_hash MurmurHash2 buffer n hash tt = Done ((ok, stored), tt) /\
    (ok = true <-> buffer <> None /\ hash = true /\ 0 < n < INT32_MAX) /\
    (ok = false -> stored = None) /\
    (forall l, ok = true -> buffer = Some l -> stored = Some (MurmurHash2 (take (Z.to_nat n) l) n 0)).
Proof.
  intros mm [l|] n hash Hn Hl; [|exists false, None; split_and!; try done; split; [done|by intros [? _]]]. specialize (Hl l eq_refl). unfold hash_compute_hash.
  destruct ((n =? 0) || negb hash || (n >=? INT32_MAX)) eqn:E.
  - exists false, None. split_and!; try done. split; [done|]. intros (_ & -> & H). unfold is_u64 in Hn. cbn [negb] in E. lia.
  - assert (hash = true /\ 0 < n < INT32_MAX) as [-> Hr] by (unfold is_u64 in Hn; destruct hash; [split; [done|]; simpl in E; lia|exfalso; simpl in E; lia]).
    assert (to_int n = n) as Hi by (unfold to_int, INT32_MAX, UINT32_MOD in *; rewrite Z.mod_small by lia; lia). rewrite Hi. unfold call_murmur, bind.
    assert ((n <? 0) || (Z.of_nat (length l) <? n) = false) as -> by lia. exists true, (Some (mm (take (Z.to_nat n) l) n 0)). split_and!; try done. intros l' _ [= ->]. done.
Qed.
Print Assumptions C52_hash.

(** The hash is a function of the n bytes only: two buffers that agree on them have the same one. *)
Theorem C52_same_bytes : forall MurmurHash2 l1 l2 n, is_u64 n -> n <= Z.of_nat (length l1) -> n <= Z.of_nat (length l2) -> take (Z.to_nat n) l1 = take (Z.to_nat n) l2 ->
  hash_compute_hash MurmurHash2 (Some l1) n true tt = hash_compute_hash MurmurHash2 (Some l2) n true tt.
Proof.
  intros mm l1 l2 n Hn H1 H2 E. destruct (C52_hash mm (Some l1) n true Hn) as (o1 & s1 & E1 & I1 & F1 & S1); [by intros ? [= <-]|].
  destruct (C52_hash mm (Some l2) n true Hn) as (o2 & s2 & E2 & I2 & F2 & S2); [by intros ? [= <-]|]. rewrite E1, E2. assert (o1 = o2) as <-.
  { destruct o1, o2; try done; [symmetry; apply I2|apply I1]; split_and!; try done; naive_solver. }
  destruct o1; [|by rewrite F1, F2]. by rewrite (S1 l1), (S2 l2), E.
Qed.
Print Assumptions C52_same_bytes.

(** With the number of bytes and their sum for a hash *)
Example ex_hash : let mm l n seed := n + foldr Z.add seed l in
  hash_compute_hash mm (Some [1; 2; 3; 4]) 3 true tt = Done ((true, Some 9), tt) /\ hash_compute_hash mm (Some [1]) 0 true tt = Done ((false, None), tt) /\
  hash_compute_hash mm (Some [1]) 1 false tt = Done ((false, None), tt).
Proof. by vm_compute. Qed.
