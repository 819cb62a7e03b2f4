(** Vocabulary of the statements about GRR18. *)
From Verif Require Import Base Rr17_Model Rr17a_Model Rr17a_Spec Grr18_Model.

Definition sumN (l : list N) : N := fold_right N.add 0 l.

(** First bin of channel [t]. *)
Definition firstBin (P : params) (t : nat) : nat := (pNb P * t / pT P)%nat.
(** Number of OTs of the bins from [s] up to, but without, [b]. *)
Definition otsBefore (loads : list nat) (s b : nat) : nat := list_sum (map (fun k => default 0%nat (loads !! k)) (seq s (b - s))).
(** All values that could occur as masks of the item [x]: any pair of OTs of its bin, [lR] of which the receiver chooses and [lS] the sender. *)
Definition grrMasks (P : params) (lR lS : list nat) (x : N) : list N :=
  let b := itemBin P x in
  concat (map (fun t =>
    if (firstBin P t <=? b)%nat && (b <? firstBin P (t + 1))%nat then
      concat (map (fun l1 => map (fun l2 =>
          N.lxor (pEncR P t (otsBefore lR (firstBin P t) b + l1)%nat (nco P x)) (pEncS P t (otsBefore lS (firstBin P t) b + l2)%nat (nco P x)))
        (seq 0 (default 0%nat (lS !! b)))) (seq 0 (default 0%nat (lR !! b))))
    else []) (seq 0 (pT P))).
Definition keyOf (P : params) (m : N) : N := m mod 2 ^ (8 * N.min 8 (pMask P)).
(** No two of them agree on the key bits; none of the keys is the map's empty key. *)
Definition grrCollisionFree (P : params) (lR lS : list nat) (items : list N) : Prop :=
  NoDup (map (keyOf P) (concat (map (grrMasks P lR lS) items))) /\ 0 ∉ map (keyOf P) (concat (map (grrMasks P lR lS) items)).

(** Loads for all bins, each at least the number of [items] in the bin and at most the capacity. *)
Definition loadsOk (P : params) (items : list N) (loads : list nat) : Prop :=
  length loads = pNb P /\ forall b l, loads !! b = Some l -> (load P items b <= l <= pCap P)%nat.
(** The random choices are permutations of the announced number of slots; the schedules are orders of the work to be done. *)
Definition grrRandOk (P : params) (lR lS : list nat) (rd : grrRand) : Prop :=
  (forall b l, lR !! b = Some l -> gShufR rd b ≡ₚ seq 0 l) /\ (forall b l, lS !! b = Some l -> gShufS rd b ≡ₚ seq 0 l) /\
  gOrdR rd ≡ₚ seq 0 (pN P) /\ gOrdS rd ≡ₚ seq 0 (pN P) /\ (forall batches, gIns rd batches ≡ₚ batches) /\
  gThr rd ≡ₚ seq 0 (pT P) /\ gOut rd ≡ₚ seq 0 (pT P).
(** Row numbers do not overflow: room for all masks and the padding. *)
Definition rowsFit (P : params) (rd : grrRand) : Prop :=
  (N.of_nat (pN P * pCap P) + Z.to_N (gSurplus rd)) * N.of_nat (pT P) < 2 ^ 64.
(** No padding row has the key of a mask of [items]. *)
Definition padMisses (P : params) (lR lS : list nat) (items : list N) (rd : grrRand) : Prop :=
  forall k, (k < Z.to_nat (gSurplus rd))%nat -> keyOf P (gPad rd k) ∉ map (keyOf P) (concat (map (grrMasks P lR lS) items)).

(** Sizes of the bins of thread [t]. *)
Definition threadSizes (P : params) (items : list N) (t : nat) : list N := map (fun b => N.of_nat (load P items b)) (idxRange (pNb P) (pT P) t).
