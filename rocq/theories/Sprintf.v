(** c_pal's sprintf_char (a new string made of formatted pieces) and reading C strings. The formatting itself is C's; the pieces used by the code are %s, %.*s and %#.8x. *)
From Verif Require Import Common Block CMem CStr.
Local Open Scope cmonad_scope.

(** The characters of a block up to its first 0. *)
Fixpoint chars0 (b : block) : option bytes :=
  match b with
  | Some c :: b => if decide (c = 0%Z) then Some [] else cons c <$> chars0 b
  | _ => None
  end.
(** Position of the last [ch] before the first 0; [found]: the one seen so far. *)
Fixpoint last_of (ch : Z) (i : nat) (found : option nat) (b : block) : option (option nat) :=
  match b with
  | Some c :: b => if decide (c = 0%Z) then Some found else last_of ch (S i) (if decide (c = ch) then Some i else found) b
  | _ => None
  end.

Section sprintf.
Context {O : Type}.

(** %s: the characters of a string. Reading an unspecified byte or past the end is undefined behaviour. *)
Definition fmt_s (c : csrc) : M (st O) bytes :=
  let* b := cells c in match chars0 b with Some t => ret t | None => undef end.
(** %.*s: at most [prec] characters; a negative precision is as if there was none. (This stops at the terminator, where C need not even have one.) *)
Definition fmt_prec_s (prec : Z) (c : csrc) : M (st O) bytes :=
  let* t := fmt_s c in ret (if decide (prec < 0)%Z then t else take (Z.to_nat prec) t).
(** strrchr(c, ch) for ch <> 0: the position of the last ch, None for NULL. *)
Definition strrchr (c : csrc) (ch : Z) : M (st O) (option nat) :=
  let* b := cells c in match last_of ch 0 None b with Some r => ret r | None => undef end.
(** sprintf_char, given what its format produces: a new string, or NULL. It is built on vsnprintf, whose int result cannot tell more than INT_MAX characters. *)
Definition sprintf_char (t : bytes) : M (st O) ptr :=
  if decide (INT32_MAX < Z.of_nat (length t))%Z then ret None
  else
    let* p := malloc (length t + 1) in
    match p with None => ret None | Some _ => memcpy_from p 0 (t ++ [0%Z]) (length t + 1) ;;; ret p end.
End sprintf.

(** What a function that makes a new string does to the program: it answers a new block with exactly the characters [t] and a terminator; or NULL, because an allocation
    failed or because [t] has more than INT_MAX characters. Nothing else in memory changes. *)
Definition new_string {O} (t : bytes) (s : st O) (r : ptr) (s' : st O) : Prop :=
  objs s' = objs s /\
  match r with
  | Some p => mem s !! p = None /\ mem s' = <[p := bytes_block (t ++ [0%Z])]> (mem s) /\ fails s' = fails s
  | None => mem s' = mem s /\ (fails s < fails s' \/ (INT32_MAX < Z.of_nat (length t))%Z)
  end.
