(** The count of failed allocations never goes down. *)
From Verif Require Import Common Block CMem CStr CMemFacts StrModel.
Local Open Scope cmonad_scope.

Definition mono {O A} (m : M (st O) A) : Prop := forall s r s', m s = Done (r, s') -> fails s <= fails s'.
Section mono.
Context {O : Type}.
Implicit Types p : ptr.
Lemma mono_ret {A} (x : A) : mono (O := O) (ret x).
Proof. intros s r s' [= <- <-]. done. Qed.
Lemma mono_undef {A} : mono (O := O) (A := A) undef.
Proof. intros s r s' [=]. Qed.
Lemma mono_nofuel {A} : mono (O := O) (A := A) nofuel.
Proof. intros s r s' [=]. Qed.
Lemma mono_bind {A B} (m : M (st O) A) (k : A -> M (st O) B) : mono m -> (forall x, mono (k x)) -> mono (bind m k).
Proof.
  intros H1 H2 s r s' H. unfold bind in H. destruct (m s) as [[x s1]| |] eqn:E; [|done..]. etrans; [by eapply H1|by eapply H2].
Qed.
Lemma mono_alloc_ok : mono (O := O) alloc_ok.
Proof. intros s r s'. unfold alloc_ok. repeat case_match; intros; simplify_eq; simpl; lia. Qed.
Lemma mono_malloc n : mono (O := O) (malloc n).
Proof. apply mono_bind; [apply mono_alloc_ok|]. intros []; [|apply mono_ret]. intros s r s' [= <- <-]. done. Qed.
Lemma mono_new_obj (o : O) : mono (new_obj o).
Proof. apply mono_bind; [apply mono_alloc_ok|]. intros []; [|apply mono_ret]. intros s r s' [= <- <-]. done. Qed.
Lemma mono_free p : mono (O := O) (free p).
Proof. intros s r s'. unfold free. repeat case_match; intros; simplify_eq; done. Qed.
Lemma mono_load p off n : mono (O := O) (load p off n).
Proof. intros s r s'. unfold load. repeat case_match; intros; simplify_eq; done. Qed.
Lemma mono_store p off v : mono (O := O) (store p off v).
Proof. intros s r s'. unfold store. repeat case_match; intros; simplify_eq; done. Qed.
Lemma mono_get_obj h : mono (O := O) (get_obj h).
Proof. intros s r s'. unfold get_obj. repeat case_match; intros; simplify_eq; done. Qed.
Lemma mono_set_obj h o : mono (O := O) (set_obj h o).
Proof. intros s r s'. unfold set_obj. repeat case_match; intros; simplify_eq; done. Qed.
Lemma mono_free_obj h : mono (O := O) (free_obj h).
Proof. intros s r s'. unfold free_obj. repeat case_match; intros; simplify_eq; done. Qed.
Lemma mono_cells c : mono (O := O) (cells c).
Proof. intros s r s'. unfold cells. repeat case_match; intros; simplify_eq; done. Qed.
Lemma mono_realloc p n : mono (O := O) (realloc p n).
Proof.
  destruct p as [p|]; [|apply mono_malloc]. intros s r s'. unfold realloc. destruct (mem s !! p) as [b|]; [|done].
  assert (mono (O := O) (let* q := malloc n in match q with None => ret None | Some _ => store q 0 (take n b) ;;; free (Some p) ;;; ret q end)) as Hm.
  { apply mono_bind; [apply mono_malloc|]. intros [q|]; [|apply mono_ret]. apply mono_bind; [apply mono_store|intros _]. apply mono_bind; [apply mono_free|intros _]. apply mono_ret. }
  apply Hm.
Qed.
Lemma mono_at (l : bytes) i : mono (O := O) (at_ l i).
Proof. intros s r s'. unfold at_. case_match; [|done]. intros; by simplify_eq. Qed.
End mono.
Ltac mono_step := first
  [ apply mono_ret | apply mono_undef | apply mono_nofuel | apply mono_malloc | apply mono_new_obj | apply mono_free | apply mono_load | apply mono_store
  | apply mono_get_obj | apply mono_set_obj | apply mono_free_obj | apply mono_cells | apply mono_realloc | apply mono_at | apply mono_bind; [|intros ?]
  | match goal with |- mono (match ?x with _ => _ end) => destruct x end
  | progress unfold memcpy_from, memcpy, malloc_flex, realloc_flex, strlen, char_at, strcpy_n, set_char ].
Ltac mono := repeat (cbv beta; mono_step).

Lemma mono_construct c : mono (STRING_construct c).
Proof. unfold STRING_construct, construct_with. mono. Qed.
Lemma mono_put p vs : forall k, mono (put_chars p k vs).
Proof. induction vs as [|v vs IH]; intros k; cbn [put_chars]; mono. apply IH. Qed.
Lemma mono_count c n : forall i x y, mono (json_count c i n x y).
Proof. induction n as [|n IH]; intros i x y; cbn [json_count]; mono; apply IH. Qed.
Lemma mono_write c p n : forall i k, mono (json_write c p i n k).
Proof. induction n as [|n IH]; intros i k; cbn [json_write]; mono; (apply mono_put || apply IH). Qed.
Lemma mono_new_json c : mono (STRING_new_JSON c).
Proof. unfold STRING_new_JSON. destruct c as [c|]; [|mono]. mono_step; [mono|]. mono_step; [apply mono_count|]. mono; (apply mono_put || apply mono_write). Qed.
Lemma mono_concat h c : mono (STRING_concat h c).
Proof. unfold STRING_concat, own. mono. Qed.
Lemma mono_concat_string h c : mono (STRING_concat_with_STRING h c).
Proof. unfold STRING_concat_with_STRING, own. mono. Qed.
Lemma mono_delete h : mono (STRING_delete h).
Proof. unfold STRING_delete. mono. Qed.
