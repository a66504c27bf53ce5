(** Property C22: constbuffer_array_batcher_nv. *)
From Verif Require Import Common CbaModel Tally CbaSpec CbaFacts CbaProofs CbaBalance CbaProps BatModel CbaLogic MemDataSpec BatSpec BatProofs.
Local Open Scope Z_scope.

(** C22, batching and unbatching what was batched. The array made by batch has a header with the counts, and then all the buffers in order; unbatch of it, then or
    later, gives arrays with the same buffers in the same order. batch fails exactly when an argument is not valid, when the buffers are too many, or when memory runs out. A call that
    fails leaves nothing behind. *)
Theorem C22_round_trip : exists R, implements R /\
  (forall t s payloads count, R t s -> is_u32 count -> match payloads with None => True | Some l => count <= len l /\ Forall (maybe_held t) l end ->
   exists r s' t', constbuffer_array_batcher_nv_batch payloads count s = Done (r, s') /\ R t' s' /\
     let all := mapM (fun a : option nat => a ≫= fun x => seqs t !! x) (take (Z.to_nat count) (default [] payloads)) in
     let bad := payloads = None \/ count = 0 \/ UINT32_MAX / 4 - 1 < count \/ match all with None => True | Some ls => UINT32_MAX <= len (concat ls) end in
     match r with
     | None => (bad \/ (fails s < fails s')%nat) /\ unchanged t t'
     | Some a => ~ bad /\ ~ (fails s < fails s')%nat /\ exists ls, all = Some ls /\ batched t ls a t'
     end) /\
  (forall t s a h ls, R t s -> held t a (h :: concat ls) -> bytes_of t h = header ls -> 0 < len ls <= UINT32_MAX ->
   exists r s' t', constbuffer_array_batcher_nv_unbatch (Some a) true s = Done (r, s') /\ R t' s' /\
     match r with None => (fails s < fails s')%nat /\ unchanged t t' | Some (k, n) => ~ (fails s < fails s')%nat /\ n = len ls /\ unbatched t ls k t' end).
Proof.
  exists R. split; [split; [apply R_start|]; intros t s o HR Ho; by apply sim_all|]. split.
  - intros t s payloads count HR Hc Hp. destruct (wp_batch payloads count t Hc Hp s HR) as (r & s' & t' & f & E & HR' & Hf & HQ). exists r, s', t'. split_and!; [done|done|]. simpl. unfold batch_bad in HQ.
    destruct r as [a|].
    + destruct HQ as (? & ? & ?). split_and!; [done|lia|done].
    + destruct HQ as [[?|?] ?]; (split; [|done]); [by left|right; lia].
  - intros t s a h ls HR Hh Hb [Hne Hlen]. destruct (wp_round_trip a h ls t Hh Hb) with s as (r & s' & t' & f & E & HR' & Hf & HQ); [intros ->; done|done|done|]. exists r, s', t'. split_and!; [done|done|].
    destruct r as [[k n]|]; [destruct HQ as (? & ? & ?); split_and!; [lia|done|done]|destruct HQ; split; [lia|done]].
Qed.
Print Assumptions C22_round_trip.

(** C22, unbatching whatever array of buffers, as long as the sum of the announced counts does not pass UINT32_MAX: it fails and leaves nothing behind, or gives arrays that are
    consecutive parts of the buffers that follow the header. Missing: the case excluded by [wraps], where the claim is false (C22_wrap_refuted). *)
Theorem C22_unbatch_partial : exists R, implements R /\ forall t s a out, R t s ->
  match a with
  | None => True
  | Some x => exists l, held t x l /\ forall h rest, l = h :: rest -> all_bytes (bytes_of t h) /\ forall counts, announces (bytes_of t h) counts -> ~ wraps 1 counts (len l)
  end ->
  exists r s' t', constbuffer_array_batcher_nv_unbatch a out s = Done (r, s') /\ R t' s' /\
    match r with
    | None => (out = false \/ ~ of_array t a (fun l => exists counts rest, well_formed t l counts rest) \/ (fails s < fails s')%nat) /\ unchanged t t'
    | Some (k, n) => ~ (fails s < fails s')%nat /\ out = true /\ of_array t a (fun l => exists counts rest, well_formed t l counts rest /\ n = len counts /\ unbatched t (parts counts rest) k t')
    end.
Proof.
  exists R. split; [split; [apply R_start|]; intros t s o HR Ho; by apply sim_all|]. intros t s a out HR Ha.
  destruct (wp_unbatch a out t Ha s HR) as (r & s' & t' & f & E & HR' & Hf & HQ). exists r, s', t'. split_and!; [done|done|]. destruct r as [[k n]|].
  - destruct HQ as (? & ? & ?). split_and!; [lia|done|done].
  - destruct HQ as [[?|[?|?]] ?]; (split; [|done]); [by left|right; by left|right; right; lia].
Qed.
Print Assumptions C22_unbatch_partial.

(** The sum of line 252 wraps: one buffer, a header that announces one payload of UINT32_MAX buffers. The check passes, and the function asks for buffers that are not there:
    constbuffer_array_get_buffer returns NULL, and the array that unbatch returns, were there memory for it, has UINT32_MAX NULL handles in it. *)
Theorem C22_wrap_refuted : exists s, run_all [Buffer (be_bytes 4 1 ++ be_bytes 4 UINT32_MAX); Create (Some [0%nat]) 1] (nothing []) = Done (tt, s) /\
  constbuffer_array_batcher_nv_unbatch (Some 0%nat) true s = Undef.
Proof.
  eexists. split; [vm_compute; reflexivity|]. set (s := Heap _ _ _ _ _ _ _ _ _).
  unfold constbuffer_array_batcher_nv_unbatch. rewrite (bind_done _ _ s 1 s) by (vm_compute; reflexivity). cbn iota. change (1 =? 0) with false. cbn iota.
  rewrite (bind_done _ _ s (Some (be_bytes 4 1 ++ be_bytes 4 UINT32_MAX)) s) by (vm_compute; reflexivity). cbn iota zeta.
  change (Z.of_nat (length (be_bytes 4 1 ++ be_bytes 4 UINT32_MAX))) with 8. change ((8 <? 4) || negb (8 mod 4 =? 0)) with false. cbn iota.
  rewrite (bind_done _ _ s 1 s) by (vm_compute; reflexivity). change (1 =? 0) with false. change (negb (8 / 4 - 1 =? 1)) with false. cbn iota. change (Z.to_nat 1) with 1%nat.
  assert (exists s1, new_block 1 s = Done (Some 0%nat, s1) /\ nodes s1 = nodes s /\ knext s1 = 1%nat /\ oracle s1 = []) as (s1 & E & Hn & Hk & Ho) by (eexists; split; [reflexivity|done]).
  rewrite (bind_done _ _ _ _ _ E). cbn iota. apply bind_undef. cbn [all_payloads]. rewrite (bind_done _ _ s1 UINT32_MAX s1) by reflexivity. change (u32 (1 + UINT32_MAX) >? 1) with false. cbn iota.
  apply bind_undef. unfold one_payload. change (UINT32_MAX =? 0) with false. cbn iota. destruct (Z.to_nat UINT32_MAX) as [|n] eqn:En; [unfold UINT32_MAX in En; lia|]. clear En.
  destruct s1 as [r c nd k bn nn kn o f]. simpl in Hn, Hk, Ho. subst.
  set (s2 := Heap r c (nodes s) (<[1%nat := replicate (S n) None]> k) bn nn 2 [] f). rewrite (bind_done _ _ _ (Some 1%nat) s2) by reflexivity. cbn iota. apply bind_undef.
  cbn [gather]. rewrite (bind_done _ _ s2 None s2) by reflexivity. reflexivity.
Qed.

(** ** Examples *)
Definition result_of {A} (o : outcome (A * heap)) : option A := match o with Done (x, _) => Some x | _ => None end.
Local Open Scope cm.
(** Two arrays, of two buffers and of none, batched, unbatched, and looked at *)
Example C22_example :
  result_of ((run_all [Buffer [1; 2; 3]; Buffer [4]; Create (Some [0; 1]%nat) 2; Empty] ;;;
              let* b := constbuffer_array_batcher_nv_batch (Some [Some 0; Some 1; Some 0]%nat) 3 in
              let* c := constbuffer_array_get_buffer_content b 0 in
              let* n := constbuffer_array_get_buffer_count b true in
              let* r := constbuffer_array_batcher_nv_unbatch b true in
              let* s := get in
              let* x := constbuffer_array_get_buffer_content (Some 5%nat) 1 in
              let* y := constbuffer_array_get_buffer_count (Some 4%nat) true in
              ret (c, n, r, blocks s !! 2%nat, x, y)) (nothing []))%cm =
  Some (Some [0; 0; 0; 3; 0; 0; 0; 2; 0; 0; 0; 0; 0; 0; 0; 2], Some 5, Some (2%nat, 3), Some [Some (Arr 3); Some (Arr 4); Some (Arr 5)], Some [4], Some 0).
Proof. vm_compute. reflexivity. Qed.
(** A header that announces more buffers than there are, and one that is not a whole number of words *)
Example C22_malformed_example :
  result_of ((run_all [Buffer (be_bytes 4 1 ++ be_bytes 4 2); Buffer [0; 0; 0; 1; 0]; Create (Some [0; 1]%nat) 2; Create (Some [1]%nat) 1] ;;;
              let* x := constbuffer_array_batcher_nv_unbatch (Some 0%nat) true in
              let* y := constbuffer_array_batcher_nv_unbatch (Some 1%nat) true in
              ret (x, y)) (nothing []))%cm = Some (None, None).
Proof. vm_compute. reflexivity. Qed.
