(** C49: for_each_in_folder and for_each_in_sub_folder, whatever the folders contain, however the caller's function answers and whichever allocations fail. *)
From Verif Require Import Common FolderModel FolderSpec FolderProofs.
Local Open Scope Z_scope.

(** for_each_in_folder calls the function on the entries of the folder in their order, each once, until it fails or asks to stop or there are no more; it returns 0 iff nothing failed (FolderSpec.walk). *)
Theorem C49_folder w d h : let '(r, h') := for_each_in_folder w (Some d) (Some (call w)) h in walk w d h (r =? 0) h'.
Proof. apply folder_walk. Qed.
Print Assumptions C49_folder.
Theorem C49_folder_calls w d h e es ends : memory w h = true -> dir w (d ++ [92; 42]) = Entries e es ends ->
  exists m, (1 <= m)%nat /\ calls (for_each_in_folder w (Some d) (Some (call w)) h).2 = calls h ++ map (pair d) (take m (e :: es)).
Proof.
  intros Hm Hd. pose proof (folder_walk w d h) as Hw. destruct (for_each_in_folder w _ _ h) as [r h']. cbn. inversion Hw as [| | |n p e' es' ends' a b todo done_ h1 ok Hm' Hd' Hs Hr Ho]; try congruence. rewrite Hd in Hd'. injection Hd' as <- <- <-.
  exists (length done_). split; [inversion Hr; cbn; lia|]. rewrite Hs, take_app. cbn. by rewrite (run_calls _ _ _ _ _ _ Hr).
Qed.
Print Assumptions C49_folder_calls.

(** for_each_in_sub_folder enumerates in this way each folder in the folder, other than "." and "..", in their order, until one of these enumerations fails; a function that asks to stop ends the enumeration of one sub-folder only. *)
Theorem C49_sub_folder w d h : let '(r, h') := for_each_in_sub_folder w (Some d) (Some (call w)) h in
  (memory w h = false /\ r <> 0 /\ h' = h) \/
  memory w h = true /\ exists p, match dir w (d ++ [92; 42]) with
  | Missing => r = 0 /\ h' = Free p :: Alloc p (d ++ [92; 42]) :: h
  | Unreadable => r <> 0 /\ h' = Free p :: Alloc p (d ++ [92; 42]) :: h
  | Entries e es ends => exists n ok h1, h' = Free p :: Close n :: h1 /\ walks w d (Open n (d ++ [92; 42]) :: Alloc p (d ++ [92; 42]) :: h) (filter sub_folder (e :: es)) ok h1 /\ (r = 0 <-> ok && ends = true)
  end.
Proof.
  unfold for_each_in_sub_folder, for_each_in_folder, bind, sprintf_char. destruct (memory w h) eqn:Em; [|by left]. cbn [ret]. destruct (dir w (d ++ [92; 42])) as [| |e es ends] eqn:Ed; cbn.
  - right. eauto.
  - right. eauto.
  - pose proof (loop_walks w d e es ends (Open (S (length h)) (d ++ [92; 42]) :: Alloc (length h) (d ++ [92; 42]) :: h)) as Hl. destruct (loop _ _ _ _ _ _) as [err h']. destruct Hl as (ok&Hw&Ho). cbn. right. split; [done|].
    exists (length h), (S (length h)), ok, h'. split_and!; [done|done|]. destruct err; cbn in *; rewrite <-Ho; done.
Qed.
Print Assumptions C49_sub_folder.

(** Without a folder or a function both fail and do nothing. *)
Theorem C49_null w d f h : d = None \/ f = None -> (exists r, r <> 0 /\ for_each_in_folder w d f h = (r, h)) /\ (exists r, r <> 0 /\ for_each_in_sub_folder w d f h = (r, h)).
Proof. destruct d, f; intros [?|?]; try done; split; by exists 1. Qed.
Print Assumptions C49_null.

(** Whatever happens, each find handle is closed and each string is freed, once. *)
Theorem C49_closed w d h : (exists x, (for_each_in_folder w (Some d) (Some (call w)) h).2 = x ++ h /\ closed x) /\ (exists x, (for_each_in_sub_folder w (Some d) (Some (call w)) h).2 = x ++ h /\ closed x).
Proof.
  split; [apply folder_adds, call_adds|]. unfold for_each_in_sub_folder, bind. pose proof (folder_adds w (on_subfolder_folder w (call w)) d h (sub_adds w d)) as Hf. by destruct (for_each_in_folder w _ _ _).
Qed.
Print Assumptions C49_closed.

(** Folder "a" holds ".", "b" and a file; "a\b" holds two files, and the function stops at the second. *)
Definition e_dot := Entry [46] true. Definition e_b := Entry [98] true. Definition e_c := Entry [99] false. Definition e_d := Entry [100] false.
Definition sample := World
  (fun p => if bool_decide (p = [97; 92; 42]) then Entries e_dot [e_b; e_c] true else if bool_decide (p = [97; 92; 98; 92; 42]) then Entries e_c [e_d; e_c] true else Missing)
  (fun _ => true) (fun h d e => (0, bool_decide (name e <> [100]))).
Example ex_folder : exists h', for_each_in_folder sample (Some [97]) (Some (call sample)) [] = (0, h') /\ calls h' = [([97], e_dot); ([97], e_b); ([97], e_c)].
Proof. eexists. split; vm_compute; reflexivity. Qed.
Example ex_sub : exists h', for_each_in_sub_folder sample (Some [97]) (Some (call sample)) [] = (0, h') /\ calls h' = [([97; 92; 98], e_c); ([97; 92; 98], e_d)].
Proof. eexists. split; vm_compute; reflexivity. Qed.
