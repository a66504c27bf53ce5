(** Property theorems for the address arithmetic of src/async_op.c (C29). *)
From Verif Require Import Common AsyncOpModel.
From Verif Require AsyncOpProofs.
Local Open Scope Z_scope.

(** C29: for every address the allocator may answer (a block that ends inside the address space), every context size and alignment, and every contents of memory:
    the block asked for is [extra] = size + alignment + 14 bytes long (nothing wrapped); the context is aligned, and lies inside the block; the pointer that leads back to
    the operation lies between the fields and the context, and nothing else in memory is written; and whatever is written to the context afterwards
    (memory [m'] differs only there), async_op_from_context answers the operation. *)
Theorem C29_context_layout :
  forall block m size align c, is_u32 size -> is_u32 align -> async_op_create block m size align = Some c -> 0 < from c -> from c + extra c <= UINT64_MAX ->
    extra c = size + align + 14 /\ block (extra c) = Some (op c, from c) /\
    exists back, from c <= back /\ back mod 8 = 0 /\ back + 8 <= context c /\ context c + size <= from c + extra c /\ context c mod align = 0 /\
    (forall x, ~ (back <= x < back + 8) -> cells_after c x = m x) /\
    forall m', (forall x, ~ (context c <= x < context c + size) -> m' x = cells_after c x) -> async_op_from_context m' (context c) = Some (op c).
Proof. exact AsyncOpProofs.create_layout. Qed.
Print Assumptions C29_context_layout.

(** C29: async_op_create fails exactly when the alignment is not a power of two, when the sum of the sizes would not fit in 32 bits, or when there is no memory;
    NULL maps to NULL. *)
Theorem C29_create_refuses :
  (forall block m size align, is_u32 size -> is_u32 align ->
     async_op_create block m size align = None <->
       ~ (exists k, 0 <= k /\ align = 2 ^ k) \/ UINT32_MAX < size + align + 18 \/ block (extra_size size align) = None) /\
  (forall m, async_op_from_context m 0 = Some 0).
Proof.
  split; [|done]. intros block m size align Hs Ha. rewrite AsyncOpProofs.create_none, AsyncOpProofs.refuses_spec by done. tauto.
Qed.
Print Assumptions C29_create_refuses.

(** A context of 100 bytes aligned to 64, the fields ending at the odd address 1037. *)
Example ex_layout :
  match async_op_create (fun n => if n =? 178 then Some (1000, 1037) else None) (fun _ => None) 100 64 with
  | Some c => context c = 1088 /\ async_op_from_context (cells_after c) 1088 = Some 1000 /\ from c + extra c = 1215
  | None => False
  end.
Proof. vm_compute. repeat split. Qed.
(** The largest context that is accepted with alignment 1, and the first that is not. *)
Example ex_limits : create_refuses 4294967276 1 = false /\ create_refuses 4294967277 1 = true /\ create_refuses 8 2147483648 = false /\ create_refuses 8 48 = true.
Proof. vm_compute. repeat split. Qed.
