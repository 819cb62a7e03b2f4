(** Vocabulary of the statements about polyNTL. *)
From Verif Require Import Base PolyTree_Model PolyTree_Spec PolyNtl_Model.

(** A field whose elements are the numbers of [B] bytes. *)
Definition byteField (K : fops) (rep : fT K -> N) (ofN : N -> fT K) (B : nat) : Prop :=
  isField K /\ (forall a, rep a < 2 ^ (8 * N.of_nat B)) /\ (forall a, ofN (rep a) = a) /\ (forall n, n < 2 ^ (8 * N.of_nat B) -> rep (ofN n) = n).
(** A point, and a row of four blocks, in [B] bytes. *)
Definition pointFits (B : nat) (x : N) : Prop := x < 2 ^ 128 /\ x < 2 ^ (8 * N.of_nat B).
Definition rowFitsB (B : nat) (r : list N) : Prop :=
  exists a b c d, r = [a; b; c; d] /\ a < 2 ^ 128 /\ b < 2 ^ 128 /\ c < 2 ^ 128 /\ d < 2 ^ 128 /\
    a + 2 ^ 128 * b + 2 ^ 256 * c + 2 ^ 384 * d < 2 ^ (8 * N.of_nat B).

(** A bin: at most [d] points with their rows, distinct also from the random points that fill it up. *)
Definition binOk (K : fops) (rep : fT K -> N) (B : nat) (rnd : nat -> fT K * fT K) (d : nat) (bin : list N * list (list N)) : Prop :=
  length bin.2 = length bin.1 /\ (length bin.1 <= d)%nat /\ Forall (pointFits B) bin.1 /\ Forall (rowFitsB B) bin.2 /\
  NoDup (bin.1 ++ map (fun i => rep (rnd i).1) (seq 0 (d - length bin.1))).
(** No polynomial with fewer than [d] coefficients passes through the points of the bin. *)
Definition binFull (K : fops) (rep : fT K -> N) (ofN : N -> fT K) (rnd : nat -> fT K * fT K) (d : nat) (bin : list N * list (list N)) : Prop :=
  forall q, (length q < d)%nat ->
    ¬ (map (fun x => blocksOf (rep (evalAt K q (ofN x)))) bin.1 = bin.2 /\ forall i, (i < d - length bin.1)%nat -> evalAt K q (rnd i).1 = (rnd i).2).

(** The random points that fill a bin up to 40 are different from one another and from the points of the bin, which are blocks. *)
Definition freshDummies (K : fops) (rep : fT K -> N) (rnd : list (N * list N) -> nat -> fT K * fT K) : Prop :=
  forall pts, NoDup (map fst pts) -> Forall (fun p => p.1 < 2 ^ 128) pts -> NoDup (map fst pts ++ map (fun i => rep (rnd pts i).1) (seq 0 (40 - length pts))).
