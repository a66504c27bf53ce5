(** What a sliding window average is. *)
From Coq Require Import SpecFloat.
From Verif Require Import Common.
Local Open Scope Z_scope.

Definition sum_list (l : list Z) : Z := foldr Z.add 0 l.
(** The last w of the values added, oldest first (all of them when fewer than w were added). *)
Definition window (w : nat) (vs : list Z) : list Z := drop (length vs - w) vs.
(** The average: 0.0 before the first value, then the double nearest the sum divided by the double nearest the number of values. *)
Definition average (l : list Z) : spec_float :=
  match l with
  | [] => S754_zero false
  | _ => SFdiv 53 1024 (binary_normalize 53 1024 (sum_list l) 0 false) (binary_normalize 53 1024 (Z.of_nat (length l)) 0 false)
  end.
(** The histories whose int64_t sums, and int32_t number of additions, do not overflow. *)
Definition no_overflow (w : nat) (vs : list Z) : Prop :=
  Z.of_nat (length vs) < 2 ^ 31 /\
  forall i v, vs !! i = Some v ->
    - 2 ^ 63 <= sum_list (window w (take (S i) vs)) < 2 ^ 63 /\
    (forall old, (w <= i)%nat -> vs !! (i - w)%nat = Some old -> - 2 ^ 63 <= v - old < 2 ^ 63).
