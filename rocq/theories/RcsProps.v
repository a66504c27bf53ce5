(** Property theorems for src/rc_string.c, rc_ptr.c, rc_string_array.c, rc_string_utils.c, external_command_helper.c and inc/c_util/thandle_tuple_array.h (C25, C26, C47, C48). *)
From Verif Require Import Common Block CMem Prog Sched RcsModel RcsSpec.
From Verif Require CslPool Rc RcsProofs RcsProofs2 RcsProofs4 RcsProofs5 RcsProofs6.

(** A program starts with no memory in use; whether each allocation succeeds is up to the oracle. *)
Definition init (oracle : list bool) : cst := St ∅ ∅ oracle 0.
(** What n threads that call these functions in any way the interface allows ([lib]), on references and memory they hold, can arrive at, whichever atomic step each takes in turn. *)
Definition reachable (oracle : list bool) (n : nat) (c : cst * list (thread cst op res held)) : Prop := pool_steps lib (init oracle, replicate n (Idle [])) c.
Definition idle_holding (t : thread cst op res held) (hs : list held) : Prop := t = Idle hs.
(** In c, a call o is about to answer r; it was made in the state b. *)
Definition answering (c : cst * list (thread cst op res held)) (o : op) (r : res) (b : cst) : Prop := exists i rest, c.2 !! i = Some (Running o b (Ret r) rest).

Lemma all_proved oracle n c : reachable oracle n c ->
  ~ crashes c /\
  (forall o r b, answering c o r b -> exists f, f <= fails c.1 /\ answers o r (fails b) f) /\
  (forall i, i < n -> finishes lib i c) /\
  (forall hss, Forall2 idle_holding c.2 hss -> accounted (concat hss) c.1).
Proof.
  intros Hr. destruct (CslPool.pool_correct (Rc.RInv RcsProofs.repr RcsProofs.holds) lib RcsProofs2.own answers RcsProofs4.spec (init oracle) n c) as (H1&H2&H3&H4).
  - apply Rc.RInv_init, RcsProofs.repr_excl.
  - exact Hr.
  - split; [exact H1|]. split; [intros o r b (i&rest&Hi); exact (H2 _ _ _ _ _ Hi)|]. split; [exact H3|].
    intros hss Hs. destruct (H4 hss Hs) as (r&sh&Ha&Hb&Hc&Hd&He). exact (RcsProofs5.idle_accounted _ _ _ _ Ha Hb Hc Hd He).
Qed.

(** C26: whatever the threads do, in whichever order their atomic steps are taken: no call has undefined behaviour (nothing is used after it is freed, nothing is freed twice), every call can finish, and whenever no call is
    in progress, what is referenced is there with the memory that goes with it, and nothing else is: a block given to a string or pointer is freed when its last reference is gone. *)
Theorem C26_freed_once_after_last_reference oracle n c : reachable oracle n c ->
  ~ crashes c /\ (forall i, i < n -> finishes lib i c) /\ (forall hss, Forall2 idle_holding c.2 hss -> accounted (concat hss) c.1).
Proof. intros Hr. destruct (all_proved oracle n c Hr) as (?&?&?&?). auto. Qed.
Print Assumptions C26_freed_once_after_last_reference.

(** C26: reading through a reference gives the source; creation fails only when an allocation fails (or on NULL arguments, a string too long for size_t, or a failing vsnprintf), and then the caller
    still has the memory it gave; a created string takes the memory over, a created pointer does if there is a free function. *)
Theorem C26_strings_and_pointers oracle n c b : reachable oracle n c ->
  (forall h s r, answering c (ReadString h s) r b -> r = RString s) /\
  (forall h p r, answering c (ReadPtr h p) r b -> r = RPointer p) /\
  (forall s r, answering c (Create (Some s)) (RHandle r) b ->
     (r = None -> ~ fits s \/ fails b < fails c.1) /\ gives (Create (Some s)) (RHandle r) = match r with Some h => [Ref h (TheString s)] | None => [] end) /\
  (forall s again r, answering c (CreateFormat true (Some s) again) (RHandle r) b ->
     (r = None -> again = false \/ Z.of_nat (length s) = 2147483647%Z \/ fails b < fails c.1) /\ gives (CreateFormat true (Some s) again) (RHandle r) = match r with Some h => [Ref h (TheString s)] | None => [] end) /\
  (forall p l r, answering c (CreateMove (Some (p, l))) (RHandle r) b ->
     (r = None -> fails b < fails c.1) /\ gives (CreateMove (Some (p, l))) (RHandle r) = match r with Some h => [Ref h (TheString (string_in l))] | None => [Mem p l] end) /\
  (forall p l off func r, answering c (CreateCustom p l (Some off) func) (RHandle r) b ->
     (r = None -> func = false \/ fails b < fails c.1) /\ (func = false -> r = None) /\
     gives (CreateCustom p l (Some off) func) (RHandle r) = match r with Some h => [Ref h (TheString (string_in (drop off l)))] | None => [Mem p l] end) /\
  (forall h s r, answering c (Recreate (Some (h, s))) (RHandle r) b ->
     (r = None -> ~ fits s \/ fails b < fails c.1) /\ gives (Recreate (Some (h, s))) (RHandle r) = Ref h (TheString s) :: match r with Some h' => [Ref h' (TheString s)] | None => [] end) /\
  (forall p l func x m r, answering c (CreatePtr (Some (p, l)) func x m) (RHandle r) b ->
     (r = None -> fails b < fails c.1) /\
     gives (CreatePtr (Some (p, l)) func x m) (RHandle r) = match r with Some h => Ref h (ThePointer p) :: (if func then [] else [Mem p l; Mem x m]) | None => [Mem p l; Mem x m] end) /\
  (forall o r, answering c o (RHandle r) b ->
     o = Create None \/ (exists text again, o = CreateFormat false text again) \/ (exists again, o = CreateFormat true None again) \/ o = CreateMove None \/ (exists p l func, o = CreateCustom p l None func) \/ o = Recreate None \/ (exists func x m, o = CreatePtr None func x m) ->
     r = None /\ gives o (RHandle r) = uses o).
Proof.
  intros Hr. destruct (all_proved oracle n c Hr) as (_&Ha&_&_). split_and!.
  - intros h s r H. destruct (Ha _ _ _ H) as (f&Hf&Hans). destruct r; try done. simpl in Hans. by subst.
  - intros h p r H. destruct (Ha _ _ _ H) as (f&Hf&Hans). destruct r; try done. simpl in Hans. by subst.
  - intros s r H. destruct (Ha _ _ _ H) as (f&Hf&Hans). cbn [answers] in Hans. split; [|by destruct r]. intros ->. destruct (decide (fits s)); [|by left]. right. specialize (Hans eq_refl). lia.
  - intros s again r H. destruct (Ha _ _ _ H) as (f&Hf&Hans). cbn [answers] in Hans. split; [|by destruct r]. intros ->. destruct again; [|by left]. destruct (decide _) as [Hd|Hd] in Hans; [auto|]. right. right. specialize (Hans eq_refl). lia.
  - intros p l r H. destruct (Ha _ _ _ H) as (f&Hf&Hans). cbn [answers] in Hans. split; [|by destruct r]. intros ->. specialize (Hans eq_refl). lia.
  - intros p l off func r H. destruct (Ha _ _ _ H) as (f&Hf&Hans). cbn [answers] in Hans. destruct (decide _) as [[|Hd]|Hd] in Hans; [done| |].
    + split; [by left|]. split; [done|]. by destruct r.
    + split; [intros ->; right; specialize (Hans eq_refl); lia|]. split; [intros ->; destruct Hd; by right|]. by destruct r.
  - intros h s r H. destruct (Ha _ _ _ H) as (f&Hf&Hans). cbn [answers] in Hans. split; [|by destruct r]. intros ->. destruct (decide (fits s)); [|by left]. right. specialize (Hans eq_refl). lia.
  - intros p l func x m r H. destruct (Ha _ _ _ H) as (f&Hf&Hans). cbn [answers] in Hans. split; [intros ->; specialize (Hans eq_refl); lia|]. by destruct r, func.
  - intros o r H Ho. destruct (Ha _ _ _ H) as (f&Hf&Hans). destruct Ho as [->|[(text&again&->)|[(again&->)|[->|[(p&l&func&->)|[->|(func&x&m&->)]]]]]]; cbn [answers] in Hans.
    + by subst.
    + destruct text; by subst.
    + by subst.
    + by subst.
    + rewrite decide_True in Hans by (by left). by subst.
    + by subst.
    + by subst.
Qed.
Print Assumptions C26_strings_and_pointers.

(** Runs. Thread 0 makes a string with a custom free of a block, gives a reference to thread 1 and drops its own while thread 1 reads; then thread 1 drops the last one. *)
Local Instance held_eq : EqDecision held.
Proof. solve_decision. Defined.
Definition block1 : bytes := [65; 66; 44; 67; 0]%Z.
Definition str1 : bytes := [66; 44; 67]%Z.
Local Ltac ok := unfold turn_allowed; simpl; first [done|lia|unfold no_zero, str1, block1; simpl; rewrite ?elem_of_cons, ?elem_of_nil; lia|set_solver].
Definition schedule1 : list (nat * turn op held) :=
  [(0, Call (Malloc block1)); (0, Go 2); (0, Answer); (0, Call (CreateCustom 1 block1 (Some 1) true)); (0, Go 1); (0, Answer); (0, Call (Assign 1 (TheString str1))); (0, Go 1); (0, Answer);
   (0, Hand 1 (Ref 1 (TheString str1))); (1, Call (ReadString 1 str1)); (0, Call (Release 1 (TheString str1))); (0, Go 1); (1, Go 1)].
Definition schedule2 : list (nat * turn op held) := [(0, Answer); (1, Answer); (1, Call (Release 1 (TheString str1))); (1, Go 4); (1, Answer)].
Example ex_string_outlives : exists c, reachable [] 2 c /\
  (exists b, answering c (ReadString 1 str1) (RString str1) b) /\ map_to_list (mem c.1) = [(1%positive, bytes_block block1)].
Proof.
  apply (sched_reaches lib schedule1).
  - repeat (apply Forall_cons_2; [ok|]); apply Forall_nil_2.
  - assert (match sched lib schedule1 (init [], replicate 2 (Idle [])) with
            | Some c => match c.2 !! 1 with Some (Running o _ (Ret r) _) => o = ReadString 1 str1 /\ r = RString str1 | _ => False end /\ map_to_list (mem c.1) = [(1%positive, bytes_block block1)]
            | None => False
            end) as H by (vm_compute; auto).
    destruct (sched lib schedule1 _) as [c|]; [|exact H]. destruct H as [H1 H2]. split; [|exact H2]. destruct (c.2 !! 1) as [[|o b [r|] hs]|] eqn:E; try destruct H1. exists b, 1, hs. subst. exact E.
Qed.
Example ex_all_dropped : exists c, reachable [] 2 c /\ Forall2 idle_holding c.2 [[]; []] /\ map_to_list (mem c.1) = [] /\ map_to_list (objs c.1) = [].
Proof.
  apply (sched_reaches lib (schedule1 ++ schedule2)).
  - repeat (apply Forall_cons_2; [ok|]); apply Forall_nil_2.
  - vm_compute. split; [|split; reflexivity]. repeat constructor.
Qed.
(** A creation that fails: the blocks stay with the caller. *)
Example ex_creation_fails : exists c, reachable [true; true; false] 1 c /\ Forall2 idle_holding c.2 [[Mem 1 block1; Mem 2 str1]] /\ fails c.1 = 1.
Proof.
  apply (sched_reaches lib [(0, Call (Malloc block1)); (0, Go 2); (0, Answer); (0, Call (Malloc str1)); (0, Go 2); (0, Answer); (0, Call (CreatePtr (Some (1%positive, block1)) true 2 str1)); (0, Go 1); (0, Answer)]).
  - repeat constructor; simpl; done.
  - vm_compute. split; [|reflexivity]. repeat constructor.
Qed.

(** C25, in any such run: the parts of the string between the delimiters, or NULL when an allocation failed, and then there is nothing more to free than before ([C26_freed_once_after_last_reference]).
    Partial: for strings with fewer than 2^32 - 1 delimiters ([allowed]). *)
Theorem C25_split_and_join_partial oracle n c b h s d r : reachable oracle n c -> answering c (Split (Some (h, s)) d) r b ->
  (exists a l parts, r = RArray (Some (a, l)) /\ map (option_map snd) l = map Some parts /\ join d parts = s /\ Forall (fun part => d ∉ part) parts /\ length parts = S (occurrences d s) /\
     gives (Split (Some (h, s)) d) r = [Ref h (TheString s); Arr a l]) \/
  (r = RArray None /\ fails b < fails c.1 /\ gives (Split (Some (h, s)) d) r = [Ref h (TheString s)]).
Proof.
  intros Hr H. destruct (all_proved oracle n c Hr) as (_&Ha&_&_). destruct (Ha _ _ _ H) as (f&Hf&Hans). destruct r as [| | | |r| |]; try done. cbn [answers] in Hans. destruct r as [[a l]|].
  - left. destruct Hans as (parts&Hp&Hl&_). exists a, l, parts. destruct (RcsProofs6.parts_join _ _ _ Hp) as (J1&J2&J3). auto 6.
  - right. split; [done|]. split; [lia|done].
Qed.
Print Assumptions C25_split_and_join_partial.
Theorem C25_null oracle n c b d r : reachable oracle n c -> answering c (Split None d) r b -> r = RArray None.
Proof. intros Hr H. destruct (all_proved oracle n c Hr) as (_&Ha&_&_). destruct (Ha _ _ _ H) as (f&Hf&Hans). destruct r as [| | | |r| |]; try done. cbn [answers] in Hans. by subst. Qed.
Print Assumptions C25_null.
Example ex_split : exists c, reachable [] 1 c /\ exists b a, answering c (Split (Some (1%positive, str1)) 44) (RArray (Some (a, [Some (4%positive, [66%Z]); Some (5%positive, [67%Z])]))) b.
Proof.
  set (l := [(0, Call (Create (Some str1))); (0, Go 4); (0, Answer); (0, Call (Split (Some (1%positive, str1)) 44)); (0, Go 25)] : list (nat * turn op held)).
  apply (sched_reaches lib l).
  - unfold l. repeat (apply Forall_cons_2; [ok|]). apply Forall_nil_2.
  - assert (match sched lib l (init [], replicate 1 (Idle [])) with
            | Some c => match c.2 !! 0 with Some (Running o _ (Ret r) _) => o = Split (Some (1%positive, str1)) 44 /\ r = RArray (Some (2%positive, [Some (4%positive, [66%Z]); Some (5%positive, [67%Z])])) | _ => False end
            | None => False
            end) as H by (vm_compute; auto).
    destruct (sched lib l _) as [c|]; [|exact H]. destruct (c.2 !! 0) as [[|o b [r|] hs]|] eqn:E; try destruct H. exists b, 2%positive, 0, hs. subst. exact E.
Qed.

(** C25 is false of strings with very many delimiters: the number of parts is kept in 32 bits. With 2^32 delimiters the string comes back undivided. *)
Theorem C25_too_many_delimiters_refuted : exists s d, no_zero s /\ d ∈ s /\
  exists n t, exec n (pbind (rc_string_utils_split_by_char (Some 1%positive) d) look_at) (St ∅ {[1%positive := OStr AOwn (Copied (bytes_block (s ++ [0%Z]))) 1]} [] 0) = Done (Some (2%positive, [Some (1%positive, s)]), t).
Proof.
  exists (replicate (Z.to_nat UINT32_MOD) 44%Z), 44%Z. split; [apply RcsProofs6.replicate_no_zero|]. split; [apply RcsProofs6.replicate_in, RcsProofs6.mod_pos|]. exists 15. apply RcsProofs6.undivided.
  - apply RcsProofs6.replicate_no_zero.
  - apply RcsProofs6.replicate_occurrences.
Qed.
Print Assumptions C25_too_many_delimiters_refuted.

(** C48, in any such run: a new array has all its handles NULL; what the caller finds in it later is what it put there; destroying it leaves nothing held; with [C26_freed_once_after_last_reference]
    the references in it are released then, each once, and its memory is freed. *)
Theorem C48_tuple_arrays oracle n c b : reachable oracle n c ->
  (forall k count r, answering c (TupleCreate k count) (RHandle r) b ->
     (r = None -> fails b < fails c.1) /\ gives (TupleCreate k count) (RHandle r) = match r with Some t => [Tup t k count (replicate (Z.to_nat count * k) None)] | None => [] end) /\
  (forall t k count l r, answering c (TupleRead t k count l) r b -> r = RHandles count (map (option_map fst) l)) /\
  (forall t k count l i h w r, answering c (TuplePut t k count l i h w) r b -> gives (TuplePut t k count l i h w) r = [Tup t k count (<[i := Some (h, w)]> l)]) /\
  (forall t k r, answering c (TupleDestroy t k) r b -> gives (TupleDestroy t k) r = []).
Proof.
  intros Hr. destruct (all_proved oracle n c Hr) as (_&Ha&_&_). split_and!.
  - intros k count r H. destruct (Ha _ _ _ H) as (f&Hf&Hans). cbn [answers] in Hans. split; [|by destruct r]. intros ->. specialize (Hans eq_refl). lia.
  - intros t k count l r H. destruct (Ha _ _ _ H) as (f&Hf&Hans). destruct r; try done. destruct Hans as [-> ->]. done.
  - done.
  - done.
Qed.
Print Assumptions C48_tuple_arrays.
(** A tuple array of 2 tuples of 2 handles, with one string in two of its fields, that thread 0 destroys: the string is still there for its other reference. *)
Definition tuples : list (nat * turn op held) :=
  let s := TheString [65%Z] in
  [(0, Call (TupleCreate 2 2)); (0, Go 5); (0, Answer); (0, Call (Create (Some [65%Z]))); (0, Go 4); (0, Answer); (0, Call (Assign 2 s)); (0, Go 1); (0, Answer); (0, Call (Assign 2 s)); (0, Go 1); (0, Answer);
   (0, Call (TuplePut 1 2 2 [None; None; None; None] 0 2 s)); (0, Go 2); (0, Answer); (0, Call (TuplePut 1 2 2 [Some (2%positive, s); None; None; None] 3 2 s)); (0, Go 2); (0, Answer)].
Example ex_tuples : exists c, reachable [] 1 c /\ Forall2 idle_holding c.2 [[Tup 1 2 2 [Some (2%positive, TheString [65%Z]); None; None; Some (2%positive, TheString [65%Z])]; Ref 2 (TheString [65%Z])]].
Proof.
  apply (sched_reaches lib tuples).
  - repeat (apply Forall_cons_2; [ok|]); apply Forall_nil_2.
  - vm_compute. repeat constructor.
Qed.
Example ex_tuples_destroyed : exists c, reachable [] 1 c /\ Forall2 idle_holding c.2 [[Ref 2 (TheString [65%Z])]] /\ map_to_list (objs c.1) = [(2%positive, OStr AOwn (Copied (bytes_block [65; 0]%Z)) 1)].
Proof.
  apply (sched_reaches lib (tuples ++ [(0, Call (TupleDestroy (Some (1%positive, 2, 2%Z, [Some (2%positive, TheString [65%Z]); None; None; Some (2%positive, TheString [65%Z])])) 2)); (0, Go 10); (0, Answer)])).
  - repeat (apply Forall_cons_2; [ok|]); apply Forall_nil_2.
  - vm_compute. split; [|reflexivity]. repeat constructor.
Qed.

(** C47, in any such run, for a command whose output is these lines, each with its terminator of at most 2047 characters: the lines and the exit code are returned, unless the command cannot be started, its output
    cannot be read, it does not end normally or an allocation fails, and then there is nothing more to free than before. Partial: see below. *)
Theorem C47_lines_partial oracle n c b command popen ls read_error pclose r : reachable oracle n c -> command <> [] ->
  Forall (fun '(line, ending) => 0%Z ∉ line /\ 10%Z ∉ line /\ 13%Z ∉ line /\ (ending = [10%Z] \/ ending = [13%Z; 10%Z]) /\ (Z.of_nat (length (line ++ ending)) <= 2047)%Z) ls ->
  answering c (Execute (Some command) true true popen (concat (map (fun '(line, ending) => line ++ ending) ls)) read_error pclose) r b ->
  (exists a l, r = RExecute EXTERNAL_COMMAND_OK (Some (a, l)) (Some pclose.2) true /\ map (option_map snd) l = map Some (map fst ls)) \/
  (exists closed, r = RExecute EXTERNAL_COMMAND_ERROR None None closed /\ (popen = false \/ read_error = true \/ pclose.1 <> 0%Z \/ fails b < fails c.1)).
Proof.
  intros Hr Hc Hls H. destruct (all_proved oracle n c Hr) as (_&Ha&_&_). destruct (Ha _ _ _ H) as (f&Hf&Hans). destruct r as [| | | | | |r a code closed]; try done. cbn [answers] in Hans. destruct command as [|x command]; [done|].
  destruct Hans as (bufs&Hd&Hcl&_&Hans). destruct (RcsProofs6.delivered_lines _ _ _ Hls Hd eq_refl) as [Hex Hun]. destruct r; [|done|].
  - left. destruct Hans as (->&->&_&->&arr&l&lines&->&Hf2&Hl). exists arr, l. rewrite Hl, (Hun _ Hf2). destruct closed; [done|]. destruct (Hcl eq_refl) as (_&?&_). done.
  - right. exists closed. destruct Hans as (->&->&Hw). split; [done|]. destruct Hw as [?|[?|[?|[?|Hno]]]]; [auto|auto|auto| |by destruct Hno]. right. right. right. lia.
Qed.
Print Assumptions C47_lines_partial.
(** C47: when the output has no '\r' and no '\0', success means that it is the lines that are returned, each with its newline; so a line that does not fit, or a last line without newline, is an error. *)
Theorem C47_no_line_lost oracle n c b command popen text read_error pclose a code closed : reachable oracle n c -> 13%Z ∉ text -> 0%Z ∉ text ->
  answering c (Execute (Some command) true true popen text read_error pclose) (RExecute EXTERNAL_COMMAND_OK a code closed) b ->
  exists arr l lines, a = Some (arr, l) /\ code = Some pclose.2 /\ map (option_map snd) l = map Some lines /\ text = concat (map (fun line => line ++ [10%Z]) lines) /\
    Forall (fun line => 10%Z ∉ line /\ (Z.of_nat (length line) < 2047)%Z) lines.
Proof.
  intros Hr H13 H0 H. destruct (all_proved oracle n c Hr) as (_&Ha&_&_). destruct (Ha _ _ _ H) as (f&Hf&Hans). cbn [answers] in Hans. destruct command as [|x command]; [by destruct Hans|].
  destruct Hans as (bufs&Hd&Hcl&_&->&->&_&->&arr&l&lines&->&Hf2&Hl). exists arr, l, lines. split; [done|]. split; [done|]. split; [done|]. by eapply RcsProofs6.lines_delivered.
Qed.
Print Assumptions C47_no_line_lost.
(** C47: nothing is returned with an error; NULL arguments and an empty command are refused; the pipe is closed, except perhaps when reading from it failed. *)
Theorem C47_errors oracle n c b command lines return_code popen text read_error pclose r a code closed : reachable oracle n c ->
  answering c (Execute command lines return_code popen text read_error pclose) (RExecute r a code closed) b ->
  (r = EXTERNAL_COMMAND_OK -> popen = true /\ read_error = false /\ pclose.1 = 0%Z /\ closed = true) /\
  (r <> EXTERNAL_COMMAND_OK -> a = None /\ code = None /\ gives (Execute command lines return_code popen text read_error pclose) (RExecute r a code closed) = []) /\
  (r = EXTERNAL_COMMAND_INVALID_ARGS <-> command = None \/ command = Some [] \/ lines = false \/ return_code = false) /\
  (closed = false -> popen = true /\ read_error = true).
Proof.
  intros Hr H. destruct (all_proved oracle n c Hr) as (_&Ha&_&_). destruct (Ha _ _ _ H) as (f&Hf&Hans). cbn [answers] in Hans.
  assert (forall P : Prop, (r = EXTERNAL_COMMAND_INVALID_ARGS /\ a = None /\ code = None /\ closed = true) -> P -> (r = EXTERNAL_COMMAND_OK -> popen = true /\ read_error = false /\ pclose.1 = 0%Z /\ closed = true) /\
    (r <> EXTERNAL_COMMAND_OK -> a = None /\ code = None /\ gives (Execute command lines return_code popen text read_error pclose) (RExecute r a code closed) = []) /\ (r = EXTERNAL_COMMAND_INVALID_ARGS <-> P) /\ (closed = false -> popen = true /\ read_error = true)) as Hbad by (intros P (->&->&->&->) HP; done).
  destruct command as [[|x command]|]; [apply Hbad; auto| |apply Hbad; auto]. destruct lines; [|apply Hbad; auto]. destruct return_code; [|apply Hbad; auto]. clear Hbad.
  destruct Hans as (bufs&Hd&Hcl&_&Hans). destruct r; [|done|].
  - destruct Hans as (->&->&->&_). assert (closed = true) as -> by (destruct closed; [done|]; by destruct (Hcl eq_refl) as (_&?&_)). split; [done|]. split; [done|]. split; [|done]. split; [done|by intros [|[|[|]]]].
  - destruct Hans as (->&->&_). split; [done|]. split; [done|]. split; [split; [done|by intros [|[|[|]]]]|]. intros ->. by destruct (Hcl eq_refl) as (?&?&_).
Qed.
Print Assumptions C47_errors.
Definition ls1 : list (bytes * bytes) := [([65], [13; 10]); ([], [10]); ([66; 67], [10])]%Z.
Definition text1 : bytes := concat (map (fun '(line, ending) => line ++ ending) ls1).
Example ex_execute : exists c, reachable [] 1 c /\ exists b a, answering c (Execute (Some [99%Z]) true true true text1 false (0, 7)%Z) (RExecute EXTERNAL_COMMAND_OK (Some (a, [Some (2, [65%Z]); Some (4, []); Some (6, [66; 67]%Z)]%positive)) (Some 7%Z) true) b.
Proof.
  set (l := [(0, Call (Execute (Some [99%Z]) true true true text1 false (0, 7)%Z)); (0, Go 47)] : list (nat * turn op held)).
  apply (sched_reaches lib l).
  - unfold l. repeat (apply Forall_cons_2; [ok|]). apply Forall_nil_2.
  - assert (match sched lib l (init [], replicate 1 (Idle [])) with
            | Some c => match c.2 !! 0 with Some (Running o _ (Ret r) _) => o = Execute (Some [99%Z]) true true true text1 false (0, 7)%Z /\
                r = RExecute EXTERNAL_COMMAND_OK (Some (7%positive, [Some (2, [65%Z]); Some (4, []); Some (6, [66; 67]%Z)]%positive)) (Some 7%Z) true | _ => False end
            | None => False
            end) as H by (vm_compute; auto).
    destruct (sched lib l _) as [c|]; [|exact H]. destruct (c.2 !! 0) as [[|o b [r|] hs]|] eqn:E; try destruct H. exists b, 7%positive, 0, hs. subst. exact E.
Qed.

(** C47 is false of output with a '\r' inside a line: what follows it is lost, with no error. *)
Theorem C47_text_after_carriage_return_lost_refuted : exists n t a h,
  exec n (pbind (external_command_helper_execute (Some [99%Z]) true true true [65; 13; 66; 10]%Z false (0, 0)%Z) (fun x => let '(r, a, code, closed) := x in pbind (look_at a) (fun l => Ret (r, l)))) (init []) =
  Done ((EXTERNAL_COMMAND_OK, Some (a, [Some (h, [65%Z])])), t).
Proof. exists 50. vm_compute. do 3 eexists. reflexivity. Qed.
Print Assumptions C47_text_after_carriage_return_lost_refuted.
(** "Nothing leaked" is false of the pipe: when reading the output fails, it is not closed. *)
Theorem C47_pipe_left_open_refuted : exists n t, exec n (external_command_helper_execute (Some [99%Z]) true true true [65; 10]%Z true (0, 0)%Z) (init []) = Done ((EXTERNAL_COMMAND_ERROR, None, None, false), t).
Proof. exists 50. vm_compute. eexists. reflexivity. Qed.
Print Assumptions C47_pipe_left_open_refuted.
