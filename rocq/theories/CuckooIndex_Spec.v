(** Specification vocabulary for the cuckoo index, independent of the
    model's helper functions: it decodes table words arithmetically. *)
From Verif Require Import Base CuckooIndex_Model.

(** Content of a table word: [None] for the all-ones word, otherwise (index, hash function). *)
Definition entryOf (w : N) : option (N * N) :=
  if decide (w = 2 ^ 64 - 1) then None else Some (w mod 2 ^ 56, w / 2 ^ 56).

(** All indices stored anywhere in the object (bins first, then stash). *)
Definition storedIndices (c : Cuckoo) : list N :=
  (omap entryOf (cBins c ++ cStash c)).*1.

(** Hash function [j] maps an item with hash block [h] to bin [a] of [nb]. *)
Definition mapsTo (nb h j a : N) : Prop := a = ((h / 2 ^ (16 * j)) mod 2 ^ 64) mod nb.

(** [times l x]: number of occurrences. *)
Definition times (l : list N) (x : N) : nat := length (filter (fun y => y = x) l).

(** A legal history: indices pairwise distinct, below the table's item count and
    below the reserved value 2^56-1. *)
Definition legalItems (p : CuckooParam) (items : list (N * N)) : Prop :=
  NoDup (items.*1) /\ Forall (fun i => i < N.of_nat (pN p) /\ i < 2 ^ 56 - 1) (items.*1).

(** Parameters with at least one bin and a supported number of hash functions. *)
Definition legalParams (p : CuckooParam) : Prop :=
  0 < pNumBins p /\ 1 <= pNumHashes p <= 3.
