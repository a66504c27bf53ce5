(** What enumerating a folder does. *)
From Verif Require Import Common FolderModel.
Local Open Scope Z_scope.

(** The calls of the caller's function in a history, oldest first. *)
Fixpoint calls (h : list event) : list (str * entry) := match h with [] => [] | Act d e :: h => calls h ++ [(d, e)] | _ :: h => calls h end.
(** Everything allocated and opened in a history is freed and closed in it, in the opposite order, and nothing else is. *)
Inductive closed : list event -> Prop :=
| closed_nil : closed []
| closed_act d e : closed [Act d e]
| closed_app h1 h2 : closed h1 -> closed h2 -> closed (h1 ++ h2)
| closed_alloc n s h : closed h -> closed (Free n :: h ++ [Alloc n s])
| closed_open n p h : closed h -> closed (Close n :: h ++ [Open n p]).

(** The caller's function is called with folder d and the entries es, from the history h on; it answers every call but the last with "succeeded, go on", and the last one with [last]. *)
Inductive run (w : world) (d : str) : list event -> list entry -> Z * bool -> list event -> Prop :=
| run_last h e : run w d h [e] (answer w h d e) (Act d e :: h)
| run_more h e es a h' : answer w h d e = (0, true) -> run w d (Act d e :: h) es a h' -> run w d h (e :: es) a h'.

(** One folder: what happens when it is enumerated, from the history h to the history h'; [ok]: without failure. *)
Inductive walk (w : world) (d : str) (h : list event) : bool -> list event -> Prop :=
| walk_no_memory : memory w h = false -> walk w d h false h
| walk_missing n : memory w h = true -> dir w (d ++ [92; 42]) = Missing -> walk w d h true (Free n :: Alloc n (d ++ [92; 42]) :: h)
| walk_unreadable n : memory w h = true -> dir w (d ++ [92; 42]) = Unreadable -> walk w d h false (Free n :: Alloc n (d ++ [92; 42]) :: h)
| walk_entries n p e es ends a b todo done_ h' ok : memory w h = true -> dir w (d ++ [92; 42]) = Entries e es ends -> e :: es = done_ ++ todo ->
    run w d (Open n (d ++ [92; 42]) :: Alloc p (d ++ [92; 42]) :: h) done_ (a, b) h' ->
    (a <> 0 /\ ok = false) \/ (a = 0 /\ b = false /\ ok = true) \/ (a = 0 /\ b = true /\ todo = [] /\ ok = ends) ->
    walk w d h ok (Free p :: Close n :: h').

(** The folders in a folder, and what happens when they are enumerated one after the other. *)
Definition sub_folder (e : entry) : Prop := is_dir e = true /\ name e <> [46] /\ name e <> [46; 46].
Global Instance sub_folder_dec e : Decision (sub_folder e).
Proof. unfold sub_folder. apply _. Defined.
Inductive walks (w : world) (d : str) : list event -> list entry -> bool -> list event -> Prop :=
| walks_nil h : walks w d h [] true h
| walks_no_memory h e es : memory w h = false -> walks w d h (e :: es) false h
| walks_fail h e es n h' : memory w h = true -> walk w (d ++ [92] ++ name e) (Alloc n (d ++ [92] ++ name e) :: h) false h' -> walks w d h (e :: es) false (Free n :: h')
| walks_next h e es n h' ok h'' : memory w h = true -> walk w (d ++ [92] ++ name e) (Alloc n (d ++ [92] ++ name e) :: h) true h' -> walks w d (Free n :: h') es ok h'' -> walks w d h (e :: es) ok h''.
