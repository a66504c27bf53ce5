(** What FLAGS_TO_STRING should print. *)
From Verif Require Import Common.
Local Open Scope Z_scope.

(** All bits of f are set in v. *)
Definition subset_of (f v : Z) : Prop := forall i, 0 <= i -> Z.testbit f i = true -> Z.testbit v i = true.
(** The bits of the flags that are listed ([sel] says which are). *)
Fixpoint listed_bits (fs : list Z) (sel : list bool) : Z :=
  match fs, sel with
  | f :: fs, b :: sel => Z.lor (if b then f else 0) (listed_bits fs sel)
  | _, _ => 0
  end.
(** [sel] lists exactly the flags all of whose bits are set in v and not in a flag listed before. *)
Definition selects (fs : list Z) (v : Z) (sel : list bool) : Prop :=
  length sel = length fs /\
  forall i f b, fs !! i = Some f -> sel !! i = Some b ->
    (b = true <-> subset_of f (Z.ldiff v (listed_bits (take i fs) (take i sel)))).
Fixpoint listed (ns : list bytes) (sel : list bool) : list bytes :=
  match ns, sel with
  | n :: ns, b :: sel => (if b then [n] else []) ++ listed ns sel
  | _, _ => []
  end.
(** Joined by " | ". *)
Fixpoint joined (l : list bytes) : bytes :=
  match l with
  | [] => []
  | [x] => x
  | x :: l => x ++ [32; 124; 32] ++ joined l
  end.
(** The value of a string of hexadecimal digits (lower case). *)
Definition digit_value (c : Z) : Z := if c <? 58 then c - 48 else c - 87.
Definition hex_value (l : bytes) : Z := fold_left (fun n c => n * 16 + digit_value c) l 0.
Definition is_hex (c : Z) : Prop := 48 <= c <= 57 \/ 97 <= c <= 102.
(** "UNKNOWN_FLAG(0x" d ")" where d is 8 hexadecimal digits for v. *)
Definition unknown_text (v : Z) (t : bytes) : Prop :=
  exists d, t = [85; 78; 75; 78; 79; 87; 78; 95; 70; 76; 65; 71; 40; 48; 120] ++ d ++ [41] /\ length d = 8%nat /\ Forall is_hex d /\ hex_value d = v.
(** The text for v: the listed flags, in order, then the remaining bits, if any. *)
Definition flags_text (fs : list (Z * bytes)) (v : Z) (t : bytes) : Prop :=
  exists sel, selects fs.*1 v sel /\
    let rest := Z.ldiff v (listed_bits fs.*1 sel) in
    if decide (rest = 0) then t = joined (listed fs.*2 sel)
    else exists u, unknown_text rest u /\ t = joined (listed fs.*2 sel ++ [u]).
