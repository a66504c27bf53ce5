(** What splitting does, told with the sequences and references of CbaSpec. *)
From Verif Require Import Common CbaModel CbaSpec BatSpec.
Local Open Scope Z_scope.

(** All the bytes of the buffers, in order *)
Definition all_of_them (t : abs) (l : list nat) : bytes := concat (map (bytes_of t) l).
(** ps cuts the bytes whole in pieces of max bytes; the last one may be shorter, but not empty. *)
Definition pieces (max : Z) (whole : bytes) (ps : list bytes) : Prop :=
  concat ps = whole /\ forall j p, ps !! j = Some p -> 0 < len p <= max /\ ((S j < length ps)%nat -> len p = max).
(** The user gets the array x of new buffers, with the given bytes. *)
Definition copied (t : abs) (ps : list bytes) (x : nat) (t' : abs) : Prop :=
  data t ⊆ data t' /\ seqs t ⊆ seqs t' /\ mem t' = mem t /\ (forall b, mine t' b = mine t b) /\ (forall y, ours t' y = if decide (y = x) then S (ours t y) else ours t y) /\
  exists l, seqs t' !! x = Some l /\ map (fun b => data t' !! b) l = map Some ps /\ Forall (fun b => data t !! b = None) l.
(** The user gets a block with arrays that hold the given bytes. *)
Definition cut_in (t : abs) (ps : list bytes) (k : nat) (t' : abs) : Prop :=
  data t ⊆ data t' /\ seqs t ⊆ seqs t' /\ (forall b, mine t' b = mine t b) /\ (forall a, ours t' a = ours t a) /\
  exists xs, mem t !! k = None /\ mem t' = <[k := map (fun x => Some (Arr x)) xs]> (mem t) /\
    Forall2 (fun x p => exists l, seqs t' !! x = Some l /\ Forall (fun b => is_Some (data t' !! b)) l /\ all_of_them t' l = p) xs ps.
