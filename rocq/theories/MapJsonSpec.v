(** Reading a JSON object (RFC 8259, section 4) whose members are strings, written without white space, in characters of one byte. *)
From Verif Require Import Common StrSpec.

(** After an opening quotation mark: the text up to the closing one, and what follows it. *)
Fixpoint read_string (l : list Z) : option (list Z * list Z) :=
  match l with
  | [] => None
  | c :: l' =>
    if decide (c = 34%Z) then Some ([], l')
    else if decide (c < 32)%Z then None                   (* control characters must be escaped *)
    else if decide (c = 92%Z) then
      match l' with
      | u :: l'' =>
        if decide (u = 117%Z) then
          match l'' with
          | a :: b :: x :: y :: l''' =>
            match hex_digit a, hex_digit b, hex_digit x, hex_digit y, read_string l''' with
            | Some 0%Z, Some 0%Z, Some x, Some y, Some (t, rest) => Some ((16 * x + y)%Z :: t, rest)
            | _, _, _, _, _ => None
            end
          | _ => None
          end
        else match escape u, read_string l'' with Some v, Some (t, rest) => Some (v :: t, rest) | _, _ => None end
      | [] => None
      end
    else match read_string l' with Some (t, rest) => Some (c :: t, rest) | None => None end
  end.
(** This character, and what follows. *)
Definition expect (c : Z) (l : list Z) : option (list Z) :=
  match l with c' :: l => if decide (c' = c) then Some l else None | [] => None end.
(** "name" : "value" *)
Definition read_member (l : list Z) : option ((list Z * list Z) * list Z) :=
  l ← expect 34 l; '(k, l) ← read_string l; l ← expect 58 l; l ← expect 34 l; '(v, l) ← read_string l; Some ((k, v), l).
(** member , member , ... } and then nothing; at most n members *)
Fixpoint read_members (n : nat) (l : list Z) : option (list (list Z * list Z)) :=
  match n with
  | 0 => None
  | S n =>
    '(m, l) ← read_member l;
    match l with
    | [125%Z] => Some [m]
    | 44%Z :: l => cons m <$> read_members n l
    | _ => None
    end
  end.
(** The members of the object, in the order they are written. *)
Definition json_object (l : list Z) : option (list (list Z * list Z)) :=
  match l with
  | [123%Z; 125%Z] => Some []
  | 123%Z :: l => read_members (length l) l
  | _ => None
  end.

(** The shortest text Map_ToJSON could mean, used for its length only. *)
Definition member_text (m : list Z * list Z) : list Z := json m.1 ++ [58%Z] ++ json m.2.
Fixpoint members_text (es : list (list Z * list Z)) : list Z :=
  match es with
  | [] => []
  | [m] => member_text m
  | m :: es => member_text m ++ [44%Z] ++ members_text es
  end.
Definition object_text (es : list (list Z * list Z)) : list Z := [123%Z] ++ members_text es ++ [125%Z].
