(** The textual form of a uuid: hhhhhhhh-hhhh-hhhh-hhhh-hhhhhhhhhhhh. *)
From Coq Require Import String.
From Verif Require Import Common Base64Spec.
Local Open Scope Z_scope.

(** The value of a hexadecimal digit, either case. *)
Definition hex_value (c : Z) : option Z :=
  match index_of c (codes "0123456789abcdef") with
  | Some v => Some v
  | None => index_of c (codes "0123456789ABCDEF")
  end.
(** Reads n bytes written as 2n hexadecimal digits off the front of a text. *)
Fixpoint hex_bytes (n : nat) (s : list Z) : option (bytes * list Z) :=
  match n with
  | O => Some ([], s)
  | S n =>
    match s with
    | h :: l :: s' =>
      match hex_value h, hex_value l, hex_bytes n s' with
      | Some hv, Some lv, Some (bs, s'') => Some (16 * hv + lv :: bs, s'')
      | _, _, _ => None
      end
    | _ => None
    end
  end.
Definition dash (s : list Z) : option (list Z) :=
  match s with c :: s' => if decide (c = 45) then Some s' else None | [] => None end.
(** The uuid a text starts with, if its first 36 characters have the right shape. *)
Definition uuid_of_text (s : list Z) : option bytes :=
  '(b1, s) ← hex_bytes 4 s; s ← dash s;
  '(b2, s) ← hex_bytes 2 s; s ← dash s;
  '(b3, s) ← hex_bytes 2 s; s ← dash s;
  '(b4, s) ← hex_bytes 2 s; s ← dash s;
  '(b5, s) ← hex_bytes 6 s;
  Some (b1 ++ b2 ++ b3 ++ b4 ++ b5).
