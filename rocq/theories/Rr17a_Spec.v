(** Vocabulary of the statements about RR17a. *)
From Verif Require Import Base Rr17_Model Rr17a_Model.

(** All values that could occur as masks of the item [x]: any pair of OTs of its bin. *)
Definition allMasks (P : params) (x : N) : list N :=
  concat (map (fun pl : nat * nat * nat => let '(t, b, base) := pl in
    if (b =? itemBin P x)%nat then
      concat (map (fun l1 => map (fun l2 => N.lxor (pEncR P t (base + l1)%nat (nco P x)) (pEncS P t (base + l2)%nat (nco P x))) (seq 0 (pCap P)))
        (seq 0 (pCap P)))
    else []) (places (pCap P) (pNb P) (pT P))).
(** No two of them agree on the key bits. *)
Definition collisionFree (P : params) (items : list N) : Prop :=
  NoDup (map (fun m => m mod 2 ^ keyBits P) (concat (map (allMasks P) items))).

(** Items of [l] in bin [b]. *)
Definition load (P : params) (l : list N) (b : nat) : nat := length (filter (fun x => itemBin P x = b) l).
(** [init] left sensible values; the items fit the bins. *)
Definition paramsOk (P : params) (l : list N) : Prop :=
  (0 < pN P)%nat /\ (0 < pNb P)%nat /\ (0 < pCap P)%nat /\ (0 < pT P)%nat /\ pMask P <= 16 /\ N.of_nat (pNb P) * N.of_nat (pT P) < 2 ^ 64 /\
  length l = pN P /\ forall b, (load P l b <= pCap P)%nat.
(** The random choices are permutations; the schedules are orders of the work to be done. *)
Definition randOk (P : params) (rd : rand) : Prop :=
  (forall b, rShuf rd b ≡ₚ seq 0 (pCap P)) /\ rMaskPerm rd ≡ₚ seq 0 (pN P) /\ rOrdR rd ≡ₚ seq 0 (pN P) /\ rOrdS rd ≡ₚ seq 0 (pN P) /\
  rPlaces rd ≡ₚ places (pCap P) (pNb P) (pT P) /\ rOut rd ≡ₚ seq 0 (pT P).
