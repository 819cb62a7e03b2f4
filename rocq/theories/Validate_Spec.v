(** What it means for the bins of a cuckoo index to hold a list of inputs; uses only the
    decoding of CuckooIndex_Spec. *)
From Verif Require Import Base CuckooIndex_Model CuckooIndex_Spec.

(** The indices stored in the bins, in bin order. *)
Definition binIndices (c : Cuckoo) : list N := (omap entryOf (cBins c)).*1.

(** The bins hold the inputs [xs]: the hash block of every input is recorded, the bins
    hold the numbers 0 .. |xs|-1 once each, and every one of them lies where one of the
    hash functions puts that input. *)
Definition binsHold (enc : N -> N) (c : Cuckoo) (xs : list N) : Prop :=
  (forall i x, xs !! i = Some x -> cHashes c !! i = Some (N.lxor (enc x) x)) /\
  Permutation (binIndices c) (map N.of_nat (seq 0 (length xs))) /\
  (forall a w i j, cBins c !! a = Some w -> entryOf w = Some (i, j) ->
     exists x k, xs !! N.to_nat i = Some x /\ k < pNumHashes (cParams c) /\
       mapsTo (pNumBins (cParams c)) (N.lxor (enc x) x) k (N.of_nat a)).

(** No input hashes to the reserved block of 128 ones. *)
Definition noReserved (enc : N -> N) (xs : list N) : Prop :=
  Forall (fun x => N.lxor (enc x) x <> 2 ^ 128 - 1) xs.
