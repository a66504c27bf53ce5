(** Enumerating folders (src/for_each_in_folder.c, src/for_each_in_sub_folder.c).
    The world is a record of functions: what a folder contains, and, depending on everything that has happened so far, whether an allocation succeeds and how the caller's function answers.
    What happens is recorded as a history, newest first. Strings are their lists of characters; their memory is modelled only as allocations and frees in the history. *)
From Verif Require Import Common.
Local Open Scope Z_scope.

Notation str := (list Z).
(** WIN32_FIND_DATAA: the name, and whether FILE_ATTRIBUTE_DIRECTORY is set *)
Record entry := Entry { name : str; is_dir : bool }.
(** What FindFirstFileA and FindNextFileA find for a pattern: nothing (ERROR_FILE_NOT_FOUND, ERROR_PATH_NOT_FOUND), another error, or one entry after the other; [ends]: after the last one the error is ERROR_NO_MORE_FILES *)
Inductive listing := Missing | Unreadable | Entries (e : entry) (es : list entry) (ends : bool).
Inductive event :=
| Alloc (n : nat) (s : str) | Free (n : nat)      (* allocation number n holds the string s *)
| Open (n : nat) (pattern : str) | Close (n : nat)
| Act (folder : str) (e : entry).                 (* the caller's function is called *)
Record world := World {
  dir : str -> listing;
  memory : list event -> bool;
  answer : list event -> str -> entry -> Z * bool;   (* result and *enumerationShouldContinue; the caller's function sets the latter whenever it succeeds *)
}.
Notation M A := (list event -> A * list event).
Definition ret {A} (x : A) : M A := fun h => (x, h).
Definition bind {A B} (m : M A) (f : A -> M B) : M B := fun h => let '(x, h') := m h in f x h'.
Local Notation "'do*' x := m 'in' k" := (bind m (fun x => k)) (at level 200, x pattern, m at level 100, k at level 200).

Section folder.
Context (w : world).
(** sprintf_char: number of the allocation, or NULL *)
Definition sprintf_char (s : str) : M (option nat) := fun h => if memory w h then (Some (length h), Alloc (length h) s :: h) else (None, h).
Definition free (n : nat) : M unit := fun h => (tt, Free n :: h).
Definition find_close (n : nat) : M unit := fun h => (tt, Close n :: h).
Definition call (folder : str) (e : entry) : M (Z * bool) := fun h => (answer w h folder e, Act folder e :: h).

(** for_each_in_folder.c:73-114: the loop; returns wasError. The flags that end the loop are its exits here. *)
Fixpoint loop (on_each : str -> entry -> M (Z * bool)) (folder : str) (e : entry) (es : list entry) (ends : bool) : M bool :=
  do* (r, continue) := on_each folder e in
  if negb (r =? 0) then ret true
  else if negb continue then ret false
  else
    match es with
    | e' :: es => loop on_each folder e' es ends
    | [] => ret (negb ends)
    end.
(** for_each_in_folder.c:16-125; [on_each]: None for NULL *)
Definition for_each_in_folder (folder : option str) (on_each : option (str -> entry -> M (Z * bool))) : M Z :=
  match folder, on_each with
  | Some folder, Some on_each =>
    do* p := sprintf_char (folder ++ [92; 42]) in
    match p with
    | None => ret 1
    | Some p =>
      do* r :=
        match dir w (folder ++ [92; 42]) with
        | Missing => ret 0
        | Unreadable => ret 1
        | Entries e es ends =>
          fun h => (do* was_error := loop on_each folder e es ends in
          do* _ := find_close (length h) in
          ret (if was_error : bool then 1 else 0)) (Open (length h) (folder ++ [92; 42]) :: h)
        end in
      do* _ := free p in
      ret r
    end
  | _, _ => ret 1
  end.
(** for_each_in_sub_folder.c:21-76 *)
Definition on_subfolder_folder (on_each : str -> entry -> M (Z * bool)) (folder : str) (e : entry) : M (Z * bool) :=
  if negb (is_dir e) then ret (0, true)
  else if bool_decide (name e = [46]) || bool_decide (name e = [46; 46]) then ret (0, true)
  else
    do* p := sprintf_char (folder ++ [92] ++ name e) in
    match p with
    | None => ret (1, true)
    | Some p =>
      do* r := for_each_in_folder (Some (folder ++ [92] ++ name e)) (Some on_each) in
      do* _ := free p in
      ret (if negb (r =? 0) then 1 else 0, true)
    end.
(** for_each_in_sub_folder.c:78-114 *)
Definition for_each_in_sub_folder (folder : option str) (on_each : option (str -> entry -> M (Z * bool))) : M Z :=
  match folder, on_each with
  | Some folder, Some on_each =>
    do* r := for_each_in_folder (Some folder) (Some (on_subfolder_folder on_each)) in
    ret (if negb (r =? 0) then 1 else 0)
  | _, _ => ret 1
  end.
End folder.
