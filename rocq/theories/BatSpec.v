(** What batching and unbatching do, told with the sequences and references of CbaSpec. *)
From Verif Require Import Common CbaModel CbaSpec MemDataSpec.
Local Open Scope Z_scope.

(** Everything made so far is as it was, and the user holds what they held; objects that were made and are gone again do not count. *)
Definition unchanged (t t' : abs) : Prop :=
  data t ⊆ data t' /\ seqs t ⊆ seqs t' /\ mem t' = mem t /\ (forall b, mine t' b = mine t b) /\ (forall a, ours t' a = ours t a).

(** The header of a batch: the number of payloads, then the number of buffers of each one, as big-endian 32-bit numbers *)
Definition header (ls : list (list nat)) : bytes := be_bytes 4 (len ls) ++ concat (map (fun l => be_bytes 4 (len l)) ls).

(** The user gets the array a, with a header buffer and all the buffers of the sequences ls in it. *)
Definition batched (t : abs) (ls : list (list nat)) (a : nat) (t' : abs) : Prop :=
  data t ⊆ data t' /\ seqs t ⊆ seqs t' /\ mem t' = mem t /\ (forall b, mine t' b = mine t b) /\ (forall x, ours t' x = if decide (x = a) then S (ours t x) else ours t x) /\
  exists h, data t' !! h = Some (header ls) /\ seqs t' !! a = Some (h :: concat ls).

(** The 32-bit numbers in a header, and the counts it announces: first how many they are, then the counts *)
Definition words (c : bytes) : list Z := map (fun i => be_value (take 4 (drop (4 * i) c))) (seq 0 (length c / 4)).
Definition announces (c : bytes) (counts : list Z) : Prop := len c mod 4 = 0 /\ words c = len counts :: counts /\ counts <> [].
Definition sum (l : list Z) : Z := foldr Z.add 0 l.
(** Consecutive parts of a sequence, of the given lengths *)
Fixpoint parts (counts : list Z) (l : list nat) : list (list nat) := match counts with [] => [] | c :: cs => take (Z.to_nat c) l :: parts cs (drop (Z.to_nat c) l) end.

(** What unbatch needs: a header that announces counts, and at least as many buffers after it. *)
Definition well_formed (t : abs) (l : list nat) (counts : list Z) (rest : list nat) : Prop := exists h, l = h :: rest /\ announces (bytes_of t h) counts /\ sum counts <= len rest.

(** The user gets a block with arrays of the given sequences. *)
Definition unbatched (t : abs) (ls : list (list nat)) (k : nat) (t' : abs) : Prop :=
  data t ⊆ data t' /\ seqs t ⊆ seqs t' /\ (forall b, mine t' b = mine t b) /\ (forall a, ours t' a = ours t a) /\
  exists xs, mem t !! k = None /\ mem t' = <[k := map (fun x => Some (Arr x)) xs]> (mem t) /\ Forall2 (fun x l => seqs t' !! x = Some l) xs ls.

(** The 32-bit sum of the counts passes UINT32_MAX before the announced buffers are found to be missing: see C22_wrap_refuted. *)
Fixpoint wraps (index : Z) (counts : list Z) (n : Z) : Prop :=
  match counts with [] => False | c :: cs => UINT32_MAX < index + c \/ (index + c <= n /\ wraps (index + c) cs n) end.
