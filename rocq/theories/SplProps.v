(** Properties C23 and C24: constbuffer_array_splitter. *)
From Verif Require Import Common CbaModel Tally CbaSpec CbaFacts CbaProofs CbaBalance CbaProps BatModel CbaLogic MemDataSpec BatSpec BatProofs BatProps SplModel SplSpec SplProofs SplProofs2 SplWrap.
Local Open Scope Z_scope.

(** C23. Splitting gives an array of new buffers that are the bytes of the given array cut in pieces of max bytes. It fails exactly when an argument is not valid, the bytes are
    more than UINT32_MAX, or memory runs out; then it leaves nothing behind.
    Missing: when the sum of the number of bytes and max - 1 passes UINT32_MAX the claim is false (C23_wrap_refuted). *)
Theorem C23_split_partial : exists R, implements R /\ forall t s a max, R t s -> is_u32 max -> maybe_held t a ->
  ~ of_array t a (fun l => total t l <= UINT32_MAX < total t l + max - 1) ->
  exists r s' t', constbuffer_array_splitter_split a max s = Done (r, s') /\ R t' s' /\
    match r with
    | None => (a = None \/ max = 0 \/ of_array t a (fun l => UINT32_MAX < total t l) \/ (fails s < fails s')%nat) /\ unchanged t t'
    | Some x => ~ (fails s < fails s')%nat /\ max <> 0 /\ of_array t a (fun l => total t l <= UINT32_MAX /\ exists ps, pieces max (all_of_them t l) ps /\ copied t ps x t')
    end.
Proof.
  exists R. split; [split; [apply R_start|]; intros t s o HR Ho; by apply sim_all|]. intros t s a max HR Hm Ha Hw.
  destruct (wp_split a max t Hm Ha Hw s HR) as (r & s' & t' & f & E & HR' & Hf & HQ). exists r, s', t'. split_and!; [done|done|]. destruct r as [x|].
  - destruct HQ as (? & ? & ?). split_and!; [lia|done|done].
  - destruct HQ as [[?|[?|[?|?]]] ?]; (split; [|done]); [by left|right; by left|right; right; by left|right; right; right; lia].
Qed.
Print Assumptions C23_split_partial.

(** Line 77: (remaining_buffer_size + (max_buffer_size - 1)) / max_buffer_size is computed with 32 bits. Two bytes, at most UINT32_MAX in a piece: memory for 0 handles
    is allocated, and then the handle of the one piece is written in it. *)
Theorem C23_wrap_refuted : exists s, run_all [Buffer [1; 2]; Create (Some [0%nat]) 1] (nothing []) = Done (tt, s) /\ constbuffer_array_splitter_split (Some 0%nat) UINT32_MAX s = Undef.
Proof.
  assert (bind (run_all [Buffer [1; 2]; Create (Some [0%nat]) 1]) (fun _ => constbuffer_array_splitter_split (Some 0%nat) UINT32_MAX) (nothing []) = Undef) as H by (vm_compute; reflexivity).
  destruct (run_all [Buffer [1; 2]; Create (Some [0%nat]) 1] (nothing [])) as [[[] s]| |] eqn:E.
  - exists s. split; [done|]. by rewrite (bind_done _ _ _ _ _ E) in H.
  - exfalso. assert (result_of (run_all [Buffer [1; 2]; Create (Some [0%nat]) 1] (nothing [])) = Some tt) as H2 by (vm_compute; reflexivity). by rewrite E in H2.
  - exfalso. assert (result_of (run_all [Buffer [1; 2]; Create (Some [0%nat]) 1] (nothing [])) = Some tt) as H2 by (vm_compute; reflexivity). by rewrite E in H2.
Qed.

(** C24. Splitting to arrays gives a block with arrays, whose bytes are the bytes of the given array cut in pieces of max bytes; if there are none, one array without bytes. The
    references the caller had are the same. It fails exactly when an argument is not valid, the bytes are more than UINT32_MAX, the number of arrays cannot be computed with 32 bits,
    or memory runs out; then it leaves nothing behind.
    Missing: an array of exactly UINT32_MAX buffers whose bytes are a multiple of max, where the index i of the loop may wrap; then it is false (C24_index_wraps_refuted). *)
Theorem C24_split_to_arrays_partial : exists R, implements R /\ forall t s a max out, R t s -> is_u32 max ->
  match a with None => True | Some x => exists l, held t x l /\ (len l < UINT32_MAX \/ total t l <= max \/ total t l mod max <> 0) end ->
  let too_much (l : list nat) := UINT32_MAX < total t l \/ max < total t l /\ UINT32_MAX < total t l + max - 1 in
  exists r s' t', constbuffer_array_splitter_split_to_array_of_array a max out s = Done (r, s') /\ R t' s' /\
    match r with
    | None => (a = None \/ out = false \/ max = 0 \/ of_array t a too_much \/ (fails s < fails s')%nat) /\ unchanged t t'
    | Some (k, n) => ~ (fails s < fails s')%nat /\ out = true /\ max <> 0 /\ of_array t a (fun l => ~ too_much l /\
        exists ps, (pieces max (all_of_them t l) ps /\ ps <> [] \/ all_of_them t l = [] /\ ps = [[]]) /\ n = len ps /\ cut_in t ps k t')
    end.
Proof.
  exists R. split; [split; [apply R_start|]; intros t s o HR Ho; by apply sim_all|]. intros t s a max out HR Hm Ha. cbn zeta.
  destruct (wp_split_arrays a max out t Hm Ha s HR) as (r & s' & t' & f & E & HR' & Hf & HQ). exists r, s', t'. split_and!; [done|done|]. destruct r as [[k n]|].
  - destruct HQ as (? & ? & ? & x & l & ? & ? & ? & ? & ?). split_and!; [lia|done|done|]. exists x, l. split_and!; [done|done|lia|done].
  - destruct HQ as [[?|[?|[?|[?|?]]]] ?]; (split; [|done]); [by left|right; by left|right; right; by left|right; right; right; by left|right; right; right; right; lia].
Qed.
Print Assumptions C24_split_to_arrays_partial.

(** The loop of lines 360-377 leaves i = UINT32_MAX at the end of an array of UINT32_MAX buffers, and line 317 increments it once more, to 0: the loop starts again, and writes after the end of the resulting array.
    Shown for UINT32_MAX buffers of one byte and max = 1. *)
Theorem C24_index_wraps_refuted : exists a s,
  (let* b := new_buffer [7] in match b with Some b => constbuffer_array_create (Some (fun _ => ret b)) UINT32_MAX | None => ret None end)%cm (nothing []) = Done (Some a, s) /\
  constbuffer_array_splitter_split_to_array_of_array (Some a) 1 true s = Undef.
Proof. exact (wrap_reached UINT32_MAX eq_refl). Qed.
Print Assumptions C24_index_wraps_refuted.

(** Pieces cannot be cut in another way, so the number of them is the quotient rounded up. *)
Theorem C24_number_of_pieces max whole ps : 0 < max -> pieces max whole ps -> len ps = (len whole + max - 1) / max.
Proof.
  intros Hm [<- Hp]. destruct (decide (ps = [])) as [->|Hne]; [simpl; rewrite Z.div_small; done || (unfold len; simpl; lia)|].
  assert (forall qs : list bytes, (forall j q, qs !! j = Some q -> len q = max) -> len (concat qs) = len qs * max) as Hall.
  { induction qs as [|q qs IH]; intros H; [done|]. simpl. unfold len in *. rewrite app_length. specialize (IH (fun j q Hj => H (S j) q Hj)). specialize (H 0%nat q eq_refl). simpl. lia. }
  destruct (exists_last Hne) as (qs & q & ->). rewrite concat_app. simpl. rewrite app_nil_r.
  assert (len (concat qs) = len qs * max) as Hq. { apply Hall. intros j x Hj. apply lookup_lt_Some in Hj as Hl. destruct (Hp j x) as [_ H]; [by rewrite lookup_app_l|]. apply H. rewrite app_length. simpl. lia. }
  destruct (Hp (length qs) q) as [Hlast _]; [by rewrite lookup_app_r, Nat.sub_diag|]. unfold len in *. rewrite !app_length. simpl. apply Z.div_unique with (Z.of_nat (length (concat qs) + length q) + max - 1 - max * Z.of_nat (length qs + 1)); lia.
Qed.

(** ** Examples *)
Local Open Scope cm.
(** Seven bytes, with empty buffers among them, split in pieces of three *)
Example C23_example :
  result_of ((run_all [Buffer []; Buffer [1; 2]; Buffer [3; 4; 5; 6]; Buffer [7]; Create (Some [0; 1; 0; 2; 3]%nat) 5] ;;;
              let* b := constbuffer_array_splitter_split (Some 0%nat) 3 in
              let* n := constbuffer_array_get_buffer_count b true in
              let* x := constbuffer_array_get_buffer_content b 0 in
              let* y := constbuffer_array_get_buffer_content b 1 in
              let* z := constbuffer_array_get_buffer_content b 2 in
              ret (n, x, y, z)) (nothing []))%cm = Some (Some 3, Some [1; 2; 3], Some [4; 5; 6], Some [7]).
Proof. vm_compute. reflexivity. Qed.
Example C24_example :
  result_of ((run_all [Buffer []; Buffer [1; 2; 3]; Buffer [4; 5; 6; 7; 8; 9; 10]; Create (Some [0; 1; 0; 2]%nat) 4] ;;;
              let* b := constbuffer_array_splitter_split_to_array_of_array (Some 0%nat) 3 true in
              let* s := get in
              let* n := constbuffer_array_get_buffer_count (Some 1%nat) true in
              let* x := constbuffer_array_get_buffer_content (Some 1%nat) 1 in
              let* y := constbuffer_array_get_buffer_content (Some 2%nat) 0 in
              let* z := constbuffer_array_get_buffer_content (Some 4%nat) 0 in
              ret (option_map snd b, n, x, y, z)) (nothing []))%cm = Some (Some 4, Some 3, Some [1; 2; 3], Some [4; 5; 6], Some [10]).
Proof. vm_compute. reflexivity. Qed.
