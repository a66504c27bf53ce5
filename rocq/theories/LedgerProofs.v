(** Proofs about LedgerModel.v. *)
From Verif Require Import Common LedgerModel LedgerSpec.
Local Open Scope Z_scope.
Local Open Scope cmonad_scope.

(** The things that belong to an object. *)
Definition shape (o : gmap id obj) (h : id) (w : what) (rs : list (id * rkind)) : Prop :=
  match w with
  | Channel log_context threadpool => exists sm lk, o !! h = Some (OChannel sm lk threadpool log_context) /\ rs = [(h, Mem); (lk, Lock); (sm, Sm)]
  | Window _ => exists lk, o !! h = Some (OWindow lk) /\ rs = [(lk, Lock); (h, Mem)]
  | Worker _ => exists sm, o !! h = Some (OWorker sm) /\ rs = [(sm, Sm); (h, Mem)]
  | TpWorker e _ => exists sm r, e = Some r /\ o !! h = Some (OTpWorker sm r) /\ rs = [(sm, Sm); (h, Mem)]
  | Token => exists d lk, o !! h = Some (OToken d) /\ o !! d = Some (ODispatcher lk) /\ rs = [(lk, Lock); (d, Mem); (h, Mem)]
  | TArray _ => exists arr, o !! h = Some (OTArray arr) /\ rs = [(arr, Mem); (h, Mem)]
  end.
Definition fresh (s : ledger) : Prop := forall i, (next s <= i)%nat -> live s !! i = None.
Definition agree (s s' : ledger) : Prop := forall i, (i < next s)%nat -> objs s' !! i = objs s !! i.
Lemma shape_ids o o' h w rs : (forall i, i ∈ rs.*1 -> o' !! i = o !! i) -> shape o h w rs -> shape o' h w rs.
Proof.
  intros Ha. destruct w; cbn [shape]; [intros (a&b&H1&->)|intros (a&H1&->)|intros (a&H1&->)|intros (a&b&->&H1&->)|intros (a&b&H1&H2&->)|intros (a&H1&->)]; cbn in Ha.
  - exists a, b. rewrite Ha by set_solver. done.
  - exists a. rewrite Ha by set_solver. done.
  - exists a. rewrite Ha by set_solver. done.
  - exists a, b. rewrite Ha by set_solver. done.
  - exists a, b. rewrite !Ha by set_solver. done.
  - exists a. rewrite Ha by set_solver. done.
Qed.

Ltac un := unfold channel_create, window_create, worker_thread_create, tp_worker_thread_create, cancellation_token_create, dispatcher_create, tarray_create, bind, ret, acquire, release, store, inc_ref.
Ltac lk := repeat first [rewrite lookup_insert | rewrite lookup_insert_ne by lia | rewrite lookup_delete_ne by lia].
Ltac dl := repeat first [rewrite decide_True by (cbn [live objs next refs]; lk; done)]; cbn [live objs next refs].
Lemma fresh_ins s n k : fresh s -> next s = n -> forall (m : gmap id rkind) i, (forall i, (n <= i)%nat -> m !! i = None) -> (S n <= i)%nat -> <[n := k]> m !! i = None.
Proof. intros _ _ m i H Hi. rewrite lookup_insert_ne by lia. apply H. lia. Qed.
Definition grown (s : ledger) (w : what) (h : id) (s' : ledger) : Prop :=
  exists rs, map_to_list (live s') ≡ₚ rs ++ map_to_list (live s) /\ shape (objs s') h w rs /\ agree s s' /\ (next s <= next s')%nat /\ fresh s' /\ forall r, refs s' r = (refs s r + holds w r)%nat.
Definition same (s s' : ledger) : Prop := live s' = live s /\ agree s s' /\ (next s <= next s')%nat /\ forall r, refs s' r = refs s r.
Lemma same_fresh s s' : fresh s -> same s s' -> fresh s'.
Proof. intros Hf (H1&_&H2&_) i Hi. rewrite H1. apply Hf. lia. Qed.
Lemma create_ok s w b1 b2 b3 : fresh s ->
  if succeeds w b1 b2 b3 then exists h s', create w b1 b2 b3 s = Done (Some h, s') /\ grown s w h s' else exists s', create w b1 b2 b3 s = Done (None, s') /\ same s s'.
Proof.
  intros Hf. destruct s as [n m o f]. unfold fresh in Hf. cbn in Hf. pose proof (Hf n ltac:(lia)) as F0. pose proof (Hf (S n) ltac:(lia)) as F1. pose proof (Hf (S (S n)) ltac:(lia)) as F2.
  assert (same (Ledger n m o f) (Ledger n m o f)) as Hsame by (split_and!; done).
  destruct w as [log pool|wc|fn|e fn| |cap]; cbn [succeeds create].
  - destruct b1; cbn [andb]; [|eauto]. destruct b2; cbn [andb].
    2: { un. cbn [next live objs refs]. dl. eexists. split; [done|]. split_and!; cbn; [by rewrite delete_insert|done|lia|done]. }
    destruct b3; cbn [andb].
    2: { un. cbn [next live objs refs]. dl. rewrite delete_insert by (lk; done). dl. eexists. split; [done|]. split_and!; cbn; [by rewrite delete_insert|done|lia|done]. }
    un. cbn [next live objs refs]. destruct pool as [p|], log as [g|]; cbn [next live objs refs]; dl; eexists _, _; (split; [done|]); exists [(S (S n), Mem); (S n, Lock); (n, Sm)]; cbn [live objs next refs];
      (split_and!; [rewrite !map_to_list_insert by (lk; done); done|exists n, (S n); by rewrite lookup_insert|intros i Hi; cbn in *; by rewrite lookup_insert_ne by lia|lia|intros i Hi; cbn in *; rewrite !lookup_insert_ne by lia; apply Hf; lia|]);
      intros r; cbn [holds]; unfold is; repeat case_decide; simplify_eq; lia.
  - unfold window_create. destruct (Z.ltb_spec wc 1) as [Hw|Hw].
    { rewrite (proj2 (Z.leb_gt 1 wc)) by lia. cbn. eauto. }
    rewrite (proj2 (Z.leb_le 1 wc)) by lia. cbn [andb]. destruct b1; cbn [andb]; [|eauto]. destruct b2.
    + un. cbn [next live objs refs]. dl. eexists _, _. split; [done|]. exists [(S n, Lock); (n, Mem)]. cbn [live objs next refs].
      split_and!; [rewrite !map_to_list_insert by (lk; done); done|exists (S n); by rewrite lookup_insert|intros i Hi; cbn in *; by rewrite lookup_insert_ne by lia|lia|intros i Hi; cbn in *; rewrite !lookup_insert_ne by lia; apply Hf; lia|].
      intros r. cbn. lia.
    + un. cbn [next live objs refs]. dl. eexists. split; [done|]. split_and!; cbn; [by rewrite delete_insert| |lia|done]. intros i Hi. cbn in *. by rewrite lookup_delete_ne by lia.
  - unfold worker_thread_create. destruct fn; cbn [andb negb]; [|cbn; eauto]. destruct b1; cbn [andb]; [|eauto]. destruct b2.
    + un. cbn [next live objs refs]. dl. eexists _, _. split; [done|]. exists [(S n, Sm); (n, Mem)]. cbn [live objs next refs].
      split_and!; [rewrite !map_to_list_insert by (lk; done); done|exists (S n); by rewrite lookup_insert|intros i Hi; cbn in *; by rewrite lookup_insert_ne by lia|lia|intros i Hi; cbn in *; rewrite !lookup_insert_ne by lia; apply Hf; lia|].
      intros r. cbn. lia.
    + un. cbn [next live objs refs]. dl. eexists. split; [done|]. split_and!; cbn; [by rewrite delete_insert| |lia|done]. intros i Hi. cbn in *. by rewrite lookup_delete_ne by lia.
  - unfold tp_worker_thread_create. destruct e as [e|]; [rewrite bool_decide_true by done|rewrite bool_decide_false by (by intros []); cbn; eauto]. destruct fn; cbn [andb]; [|cbn; eauto].
    destruct b1; cbn [andb]; [|eauto]. destruct b2.
    + un. cbn [next live objs refs]. dl. eexists _, _. split; [done|]. exists [(S n, Sm); (n, Mem)]. cbn [live objs next refs].
      split_and!; [rewrite !map_to_list_insert by (lk; done); done|exists (S n), e; by rewrite lookup_insert|intros i Hi; cbn in *; by rewrite lookup_insert_ne by lia|lia|intros i Hi; cbn in *; rewrite !lookup_insert_ne by lia; apply Hf; lia|].
      intros r. cbn [holds]. unfold is. repeat case_decide; simplify_eq; lia.
    + un. cbn [next live objs refs]. dl. eexists. split; [done|]. split_and!; cbn; [by rewrite delete_insert| |lia|done]. intros i Hi. cbn in *. by rewrite lookup_delete_ne by lia.
  - destruct b1; cbn [andb]; [|eauto]. destruct b2; cbn [andb].
    2: { un. cbn [next live objs refs]. dl. eexists. split; [done|]. split_and!; cbn; [by rewrite delete_insert| |lia|done]. intros i Hi. cbn in *. by rewrite lookup_delete_ne by lia. }
    destruct b3; cbn [andb].
    + un. cbn [next live objs refs]. dl. eexists _, _. split; [done|]. exists [(S (S n), Lock); (S n, Mem); (n, Mem)]. cbn [live objs next refs].
      split_and!; [rewrite !map_to_list_insert by (lk; done); done|exists (S n), (S (S n)); lk; done|intros i Hi; cbn in *; by rewrite !lookup_insert_ne by lia|lia|intros i Hi; cbn in *; rewrite !lookup_insert_ne by lia; apply Hf; lia|].
      intros r. cbn. lia.
    + un. cbn [next live objs refs]. dl. rewrite delete_insert by (lk; done). dl. eexists. split; [done|]. split_and!; cbn; [by rewrite delete_insert| |lia|done]. intros i Hi. cbn in *. by rewrite !lookup_delete_ne by lia.
  - unfold tarray_create. destruct (cap =? 0); cbn [negb andb]; [cbn; eauto|]. destruct b1; cbn [andb]; [|eauto]. destruct b2.
    + un. cbn [next live objs refs]. dl. eexists _, _. split; [done|]. exists [(S n, Mem); (n, Mem)]. cbn [live objs next refs].
      split_and!; [rewrite !map_to_list_insert by (lk; done); done|exists (S n); by rewrite lookup_insert|intros i Hi; cbn in *; by rewrite lookup_insert_ne by lia|lia|intros i Hi; cbn in *; rewrite !lookup_insert_ne by lia; apply Hf; lia|].
      intros r. cbn. lia.
    + un. cbn [next live objs refs]. dl. eexists. split; [done|]. split_and!; cbn; [by rewrite delete_insert| |lia|done]. intros i Hi. cbn in *. by rewrite lookup_delete_ne by lia.
Qed.
Definition dec_to (r : option nat) (s : ledger) : ledger := match r with Some r => Ledger (next s) (live s) (objs s) (fun x => if decide (x = r) then pred (refs s x) else refs s x) | None => s end.
Lemma dec_ok r s : (forall x, (is x r <= refs s x)%nat) -> dec_ref r s = Done (tt, dec_to r s).
Proof. intros H. destruct r as [r|]; [|done]. specialize (H r). unfold is in H. rewrite decide_True in H by done. cbn. destruct (refs s r); [lia|done]. Qed.
Lemma dec_refs r s x : refs (dec_to r s) x = (refs s x - is x r)%nat.
Proof. unfold dec_to, is. destruct r as [r|]; cbn [refs]; repeat case_decide; try lia; congruence. Qed.
Lemma dec_live r s : live (dec_to r s) = live s.
Proof. by destruct r. Qed.
Lemma dec_objs r s : objs (dec_to r s) = objs s.
Proof. by destruct r. Qed.
Lemma dec_next r s : next (dec_to r s) = next s.
Proof. by destruct r. Qed.
Lemma release_ok k i s : live s !! i = Some k -> release k i s = Done (tt, Ledger (next s) (delete i (live s)) (match k with Mem => delete i (objs s) | _ => objs s end) (refs s)).
Proof. intros H. unfold release. by rewrite decide_True. Qed.
Lemma load_ok i s o : live s !! i = Some Mem -> objs s !! i = Some o -> load i s = Done (o, s).
Proof. intros H Ho. unfold load. rewrite decide_True by done. by rewrite Ho. Qed.
Definition shrunk (s : ledger) (w : what) (rs : list (id * rkind)) (s' : ledger) : Prop :=
  map_to_list (live s) ≡ₚ rs ++ map_to_list (live s') /\ (forall i, i ∉ rs.*1 -> objs s' !! i = objs s !! i) /\ next s' = next s /\ forall r, (refs s' r + holds w r = refs s r)%nat.
Lemma destroy_ok s w h rs : shape (objs s) h w rs -> (forall i k, (i, k) ∈ rs -> live s !! i = Some k) -> NoDup rs.*1 -> (forall r, (holds w r <= refs s r)%nat) ->
  exists s', destroy w h s = Done (tt, s') /\ shrunk s w rs s'.
Proof.
  intros Hs Hl Hn Hr. unfold shrunk. destruct w as [log pool|wc|fn|e fn| |cap]; cbn [shape destroy] in *.
  - destruct Hs as (sm&lk&Ho&->). cbn in Hn. apply NoDup_cons in Hn as [N1 [N2 _]%NoDup_cons]. rewrite !not_elem_of_cons in N1. rewrite !not_elem_of_cons in N2.
    pose proof (Hl h Mem ltac:(set_solver)) as L1. pose proof (Hl lk Lock ltac:(set_solver)) as L2. pose proof (Hl sm Sm ltac:(set_solver)) as L3.
    unfold channel_dispose, bind. rewrite (load_ok _ _ _ L1 Ho). cbn [holds] in Hr.
    rewrite (dec_ok log s) by (intros x; specialize (Hr x); lia). rewrite (dec_ok pool) by (intros x; specialize (Hr x); rewrite dec_refs; lia).
    rewrite (release_ok Lock lk) by (by rewrite !dec_live). rewrite (release_ok Sm sm) by (cbn; rewrite !dec_live, lookup_delete_ne by naive_solver; done).
    rewrite (release_ok Mem h) by (cbn; rewrite !dec_live, !lookup_delete_ne by naive_solver; done). eexists. split; [done|]. cbn [live objs next refs]. rewrite !dec_live, !dec_objs, !dec_next.
    split_and!; [| |done|].
    + rewrite <-(map_to_list_delete (live s) lk Lock) by done. rewrite <-(map_to_list_delete (delete lk (live s)) sm Sm) by (rewrite lookup_delete_ne by naive_solver; done).
      rewrite <-(map_to_list_delete (delete sm (delete lk (live s))) h Mem) by (rewrite !lookup_delete_ne by naive_solver; done). cbn.
      rewrite (Permutation_swap (h, Mem) (sm, Sm)), (Permutation_swap (h, Mem) (lk, Lock)). done.
    + intros i Hi. rewrite lookup_delete_ne; [done|]. intros <-. apply Hi. set_solver.
    + intros r. rewrite !dec_refs. cbn [holds]. specialize (Hr r). lia.
  - destruct Hs as (lk&Ho&->). cbn in Hn. apply NoDup_cons in Hn as [N1 _]. rewrite !not_elem_of_cons in N1.
    pose proof (Hl h Mem ltac:(set_solver)) as L1. pose proof (Hl lk Lock ltac:(set_solver)) as L2. unfold window_dispose, bind. rewrite (load_ok _ _ _ L1 Ho).
    rewrite (release_ok Lock lk) by done. rewrite (release_ok Mem h) by (cbn; rewrite lookup_delete_ne by naive_solver; done). eexists. split; [done|]. cbn [live objs next refs]. split_and!; [| |done|cbn; intros; lia].
    + rewrite <-(map_to_list_delete (live s) lk Lock) by done. rewrite <-(map_to_list_delete (delete lk (live s)) h Mem) by (rewrite lookup_delete_ne by naive_solver; done). done.
    + intros i Hi. rewrite lookup_delete_ne; [done|]. intros <-. apply Hi. set_solver.
  - destruct Hs as (sm&Ho&->). cbn in Hn. apply NoDup_cons in Hn as [N1 _]. rewrite !not_elem_of_cons in N1.
    pose proof (Hl h Mem ltac:(set_solver)) as L1. pose proof (Hl sm Sm ltac:(set_solver)) as L2. unfold worker_thread_destroy, bind. rewrite (load_ok _ _ _ L1 Ho).
    rewrite (release_ok Sm sm) by done. rewrite (release_ok Mem h) by (cbn; rewrite lookup_delete_ne by naive_solver; done). eexists. split; [done|]. cbn [live objs next refs]. split_and!; [| |done|cbn; intros; lia].
    + rewrite <-(map_to_list_delete (live s) sm Sm) by done. rewrite <-(map_to_list_delete (delete sm (live s)) h Mem) by (rewrite lookup_delete_ne by naive_solver; done). done.
    + intros i Hi. rewrite lookup_delete_ne; [done|]. intros <-. apply Hi. set_solver.
  - destruct Hs as (sm&r&->&Ho&->). cbn in Hn. apply NoDup_cons in Hn as [N1 _]. rewrite !not_elem_of_cons in N1.
    pose proof (Hl h Mem ltac:(set_solver)) as L1. pose proof (Hl sm Sm ltac:(set_solver)) as L2. unfold tp_worker_thread_destroy, bind. rewrite (load_ok _ _ _ L1 Ho). rewrite dec_ok by exact Hr.
    rewrite (release_ok Sm sm) by done. rewrite (release_ok Mem h) by (cbn; rewrite lookup_delete_ne by naive_solver; done). eexists. split; [done|]. cbn [live objs next refs]. split_and!; [| |done|].
    + rewrite <-(map_to_list_delete (live s) sm Sm) by done. rewrite <-(map_to_list_delete (delete sm (live s)) h Mem) by (rewrite lookup_delete_ne by naive_solver; done). done.
    + intros i Hi. cbn. rewrite lookup_delete_ne; [done|]. intros <-. apply Hi. set_solver.
    + intros x. rewrite dec_refs. cbn [holds]. specialize (Hr x). cbn [holds] in Hr. lia.
  - destruct Hs as (d&lk&Ho&Hd&->). cbn in Hn. apply NoDup_cons in Hn as [N1 [N2 _]%NoDup_cons]. rewrite !not_elem_of_cons in N1. rewrite !not_elem_of_cons in N2.
    pose proof (Hl h Mem ltac:(set_solver)) as L1. pose proof (Hl d Mem ltac:(set_solver)) as L2. pose proof (Hl lk Lock ltac:(set_solver)) as L3.
    unfold cancellation_token_dispose, dispatcher_dispose, bind. rewrite (load_ok _ _ _ L1 Ho), (load_ok _ _ _ L2 Hd).
    rewrite (release_ok Lock lk) by done. rewrite (release_ok Mem d) by (cbn; rewrite lookup_delete_ne by naive_solver; done). rewrite (release_ok Mem h) by (cbn; rewrite !lookup_delete_ne by naive_solver; done).
    eexists. split; [done|]. cbn [live objs next refs]. split_and!; [| |done|cbn; intros; lia].
    + rewrite <-(map_to_list_delete (live s) lk Lock) by done. rewrite <-(map_to_list_delete (delete lk (live s)) d Mem) by (rewrite lookup_delete_ne by naive_solver; done).
      rewrite <-(map_to_list_delete (delete d (delete lk (live s))) h Mem) by (rewrite !lookup_delete_ne by naive_solver; done). done.
    + intros i Hi. rewrite !lookup_delete_ne; [done|..]; intros <-; apply Hi; set_solver.
  - destruct Hs as (arr&Ho&->). cbn in Hn. apply NoDup_cons in Hn as [N1 _]. rewrite !not_elem_of_cons in N1.
    pose proof (Hl h Mem ltac:(set_solver)) as L1. pose proof (Hl arr Mem ltac:(set_solver)) as L2. unfold tarray_free, bind. rewrite (load_ok _ _ _ L1 Ho).
    rewrite (release_ok Mem arr) by done. rewrite (release_ok Mem h) by (cbn; rewrite lookup_delete_ne by naive_solver; done). eexists. split; [done|]. cbn [live objs next refs]. split_and!; [| |done|cbn; intros; lia].
    + rewrite <-(map_to_list_delete (live s) arr Mem) by done. rewrite <-(map_to_list_delete (delete arr (live s)) h Mem) by (rewrite lookup_delete_ne by naive_solver; done). done.
    + intros i Hi. rewrite !lookup_delete_ne; [done|..]; intros <-; apply Hi; set_solver.
Qed.

(** The invariant: each object with what belongs to it. *)
Notation ent := (id * what * list (id * rkind))%type.
Definition Inv (refs0 : nat -> nat) (s : ledger) (l : list (id * what)) : Prop :=
  fresh s /\ (forall r, refs s r = refs0 r + total (fun w => holds w r) l)%nat /\
  exists es : list ent, l = es.*1 /\ map_to_list (live s) ≡ₚ flat_map snd es /\ forall e, e ∈ es -> shape (objs s) e.1.1 e.1.2 e.2.
Lemma in_flat (es : list ent) e x : e ∈ es -> x ∈ e.2 -> x ∈ flat_map snd es.
Proof. intros He Hx. apply elem_of_list_In, in_flat_map. exists e. split; by apply elem_of_list_In. Qed.
Lemma ent_live s (es : list ent) : map_to_list (live s) ≡ₚ flat_map snd es -> forall e i k, e ∈ es -> (i, k) ∈ e.2 -> live s !! i = Some k.
Proof. intros Hp e i k He Hi. apply elem_of_map_to_list. rewrite Hp. by eapply in_flat. Qed.
Lemma fst_flat (es : list ent) : (flat_map snd es).*1 = flat_map (fun e => e.2.*1) es.
Proof. induction es as [|e es IH]; [done|]. cbn. rewrite fmap_app. by f_equal. Qed.
Lemma total_cons f h w l : total f ((h, w) :: l) = (f w + total f l)%nat.
Proof. done. Qed.
Lemma total_app f l1 l2 : total f (l1 ++ l2) = (total f l1 + total f l2)%nat.
Proof. unfold total. induction l1 as [|x l1 IH]; cbn; [done|]. rewrite IH. lia. Qed.
Lemma inv_same refs0 s s' l : Inv refs0 s l -> same s s' -> Inv refs0 s' l.
Proof.
  intros (Hf&Hr&es&->&Hp&Hs) Hsame. pose proof Hsame as (Hl&Ha&Hn&Hr'). split; [by eapply same_fresh|]. split; [intros r; by rewrite Hr'|]. exists es. split_and!; [done|by rewrite Hl|].
  intros e He. eapply shape_ids; [|by apply Hs]. intros i ((i'&k)&->&Hi)%elem_of_list_fmap. apply Ha. cbn. destruct (decide (i' < next s)%nat); [done|].
  exfalso. pose proof (ent_live _ _ Hp _ _ _ He Hi) as H. rewrite Hf in H; [done|lia].
Qed.
Lemma inv_grown refs0 s s' l h w : Inv refs0 s l -> grown s w h s' -> Inv refs0 s' ((h, w) :: l).
Proof.
  intros (Hf&Hr&es&->&Hp&Hs) (rs&Hl&Hsh&Ha&Hn&Hf'&Hr'). split; [done|]. split; [intros r; rewrite Hr', Hr, total_cons; lia|]. exists ((h, w, rs) :: es). split_and!; [done|cbn; by rewrite Hl, Hp|].
  intros e [->|He]%elem_of_cons; [done|]. eapply shape_ids; [|by apply Hs]. intros i ((i'&k)&->&Hi)%elem_of_list_fmap. apply Ha. cbn. destruct (decide (i' < next s)%nat); [done|].
  exfalso. pose proof (ent_live _ _ Hp _ _ _ He Hi) as H. rewrite Hf in H; [done|lia].
Qed.
Lemma inv_destroy refs0 s l1 h w l2 : Inv refs0 s (l1 ++ (h, w) :: l2) -> exists s', destroy w h s = Done (tt, s') /\ Inv refs0 s' (l1 ++ l2).
Proof.
  intros (Hf&Hr&es&Hes&Hp&Hs). symmetry in Hes. apply fmap_app_inv in Hes as (es1&es2'&->&Hes2&->). destruct es2' as [|[[h' w'] rs] es2]; [done|]. cbn in Hes2. injection Hes2 as E1 E2 ->. subst h' w'.
  assert (NoDup (flat_map snd (es1 ++ (h, w, rs) :: es2)).*1) as Hnd. { rewrite <-Hp. apply NoDup_fst_map_to_list. }
  assert (forall i, i ∈ rs.*1 -> forall e, e ∈ es1 ++ es2 -> i ∉ e.2.*1) as Hdis.
  { intros i Hi e He Hie. rewrite fst_flat, flat_map_app in Hnd. cbn [flat_map snd] in Hnd. rewrite (Permutation_app_comm _ (rs.*1 ++ _)), <-app_assoc in Hnd. apply NoDup_app in Hnd as (_&Hd&_).
    apply (Hd _ Hi). rewrite elem_of_app. apply elem_of_app in He as [He|He]; [right|left]; apply elem_of_list_In, in_flat_map; exists e; split; by apply elem_of_list_In. }
  assert ((h, w, rs) ∈ es1 ++ (h, w, rs) :: es2) as Hin by set_solver.
  destruct (destroy_ok s w h rs) as (s'&Hd&Hl&Ho&Hn&Hr').
  - exact (Hs _ Hin).
  - intros i k Hi. exact (ent_live _ _ Hp _ _ _ Hin Hi).
  - rewrite fst_flat, flat_map_app in Hnd. cbn [flat_map snd] in Hnd. apply NoDup_app in Hnd as (_&_&Hnd). by apply NoDup_app in Hnd as (?&_&_).
  - intros r. rewrite Hr, total_app, total_cons. lia.
  - exists s'. split; [done|]. split; [|split].
    + intros i Hi. rewrite Hn in Hi. destruct (live s' !! i) as [k|] eqn:E; [|done]. exfalso. apply elem_of_map_to_list in E. assert ((i, k) ∈ map_to_list (live s)) as H by (rewrite Hl; set_solver). apply elem_of_map_to_list in H. by rewrite Hf in H.
    + intros r. specialize (Hr r). specialize (Hr' r). rewrite total_app in Hr |- *. rewrite total_cons in Hr. lia.
    + exists (es1 ++ es2). split_and!; [by rewrite fmap_app| |].
      * rewrite Hl in Hp. rewrite flat_map_app in Hp |- *. cbn [flat_map snd] in Hp. rewrite (Permutation_app_comm (flat_map snd es1)), <-app_assoc in Hp. apply Permutation_app_inv_l in Hp. rewrite Hp. apply Permutation_app_comm.
      * intros e He. eapply shape_ids; [|apply Hs; set_solver]. intros i Hi. apply Ho. intros Hi'. by eapply Hdis.
Qed.
Lemma history_inv refs0 s l : history refs0 s l -> Inv refs0 s l.
Proof.
  induction 1 as [|s l w b1 b2 b3 h s' _ IH Hc|s l w b1 b2 b3 s' _ IH Hc|s l1 h w l2 s' _ IH Hd].
  - split; [done|]. split; [intros r; cbn; lia|]. exists []. split_and!; [done|cbn [live]; by rewrite map_to_list_empty|]. by intros e ?%elem_of_nil.
  - pose proof (create_ok s w b1 b2 b3 (proj1 IH)) as H. destruct (succeeds w b1 b2 b3); [destruct H as (h'&s2&H1&H2)|destruct H as (s2&H1&H2)]; rewrite Hc in H1; simplify_eq. by eapply inv_grown.
  - pose proof (create_ok s w b1 b2 b3 (proj1 IH)) as H. destruct (succeeds w b1 b2 b3); [destruct H as (h'&s2&H1&H2)|destruct H as (s2&H1&H2)]; rewrite Hc in H1; simplify_eq. by eapply inv_same.
  - destruct (inv_destroy _ _ _ _ _ _ IH) as (s2&H1&H2). rewrite Hd in H1. by simplify_eq.
Qed.
Lemma shape_owns o h w rs k : shape o h w rs -> length (filter (fun x => x.2 = k) rs) = owns w k.
Proof. destruct w; cbn [shape]; [intros (?&?&_&->)|intros (?&_&->)|intros (?&_&->)|intros (?&?&_&_&->)|intros (?&?&_&_&->)|intros (?&_&->)]; by destruct k. Qed.
Lemma existing_ok refs0 s l k : history refs0 s l -> existing k s = total (fun w => owns w k) l.
Proof.
  intros (_&_&es&->&Hp&Hs)%history_inv. unfold existing. rewrite Hp. clear Hp. induction es as [|e es IH]; [done|]. cbn [flat_map]. rewrite filter_app, app_length, IH by (intros; apply Hs; set_solver).
  rewrite (shape_owns _ _ _ _ k (Hs e ltac:(set_solver))). by destruct e as [[]].
Qed.
