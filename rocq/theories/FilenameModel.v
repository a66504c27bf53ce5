(** Model of src/filename_helper.c. *)
From Verif Require Import Common Block CMem CStr Sprintf.
Local Open Scope cmonad_scope.

Definition chr_dot : Z := 46.         (* '.' *)
Definition chr_backslash : Z := 92.   (* '\\' *)

(** filename_helper.c:13-68; None is a NULL argument. The struct type of the heap is unit: there are none. Pointers into filename are offsets from its start. *)
Definition filename_append_suffix (filename suffix : option csrc) : M (st unit) ptr :=
  match filename, suffix with
  | Some f, Some x =>
    let* dot := strrchr f chr_dot in
    let* bs := strrchr f chr_backslash in
    match dot with
    | None => let* t1 := fmt_s f in let* t2 := fmt_s x in sprintf_char (t1 ++ t2)
    | Some d =>
      if (match bs with Some b => bool_decide (d < b) | None => false end)
      then let* t1 := fmt_s f in let* t2 := fmt_s x in sprintf_char (t1 ++ t2)
      else
        let* t1 := fmt_prec_s (i32 (Z.of_nat d)) f in let* t2 := fmt_s x in let* t3 := fmt_s f in
        sprintf_char (t1 ++ t2 ++ drop d t3)
    end
  | _, _ => ret None
  end.
