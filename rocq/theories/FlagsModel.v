(** Model of the function defined by FLAGS_TO_STRING_DEFINE_FUNCTION, inc/c_util/flags_to_string.h. *)
From Verif Require Import Common Block CMem CStr Sprintf.
Local Open Scope Z_scope.
Local Open Scope cmonad_scope.

(** The pairs FLAG_VALUE, FLAG_NAME the macro is given. Simplification: FLAG_VALUE is a uint32_t value; the macro pastes its text, so an
    unparenthesised expression such as A|B would mean something else. *)
Notation decl := (list (Z * bytes)).

Definition bar : bytes := [32; 124; 32].   (* " | " *)
(** flags_to_string.h:89-91: separator_N and value_N of one flag, and the new firstFlag and argument. *)
Definition separator_and_value (flag : Z) (name : bytes) (first : bool) (argument : Z) : bytes * bytes * bool * Z :=
  if Z.land argument flag =? flag then (if first then [] else bar, name, false, Z.land argument (u32 (Z.lnot flag)))
  else ([], [], first, argument).
(** flags_to_string.h:36, in the order of the list: the formatted "%s%s" pairs. *)
Fixpoint all_values (ds : decl) (first : bool) (argument : Z) : bytes * bool * Z :=
  match ds with
  | [] => ([], first, argument)
  | (flag, name) :: ds =>
    match separator_and_value flag name first argument with
    | (sep, value, first, argument) =>
      match all_values ds first argument with (t, first, argument) => (sep ++ value ++ t, first, argument) end
    end
  end.
(** %#.8x of a non-zero uint32_t: 0x and eight lower case hexadecimal digits. *)
Definition hex_digit (d : Z) : Z := if d <? 10 then 48 + d else 87 + d.
Definition hex8 (z : Z) : bytes := [48; 120] ++ ((fun i => hex_digit (z / 16 ^ i mod 16)) <$> [7; 6; 5; 4; 3; 2; 1; 0]).
Definition unknown_flag : bytes := [85; 78; 75; 78; 79; 87; 78; 95; 70; 76; 65; 71; 40].   (* "UNKNOWN_FLAG(" *)

(** flags_to_string.h:23-80 *)
Definition FLAGS_TO_STRING (ds : decl) (argument : Z) : M (st unit) ptr :=
  match all_values ds true argument with
  | (t, first, argument) =>
    if negb (argument =? 0) then sprintf_char (t ++ (if first then [] else bar) ++ unknown_flag ++ hex8 argument ++ [41])
    else sprintf_char t
  end.
