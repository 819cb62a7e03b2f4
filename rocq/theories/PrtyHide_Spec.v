(** Vocabulary of the statements about what the polynomials of PRTY reveal. *)
From Verif Require Import Base PolyTree_Model.

(** The number in the blocks of a row. *)
Fixpoint rowNum (r : list N) : N := match r with [] => 0 | b :: r' => b + 2 ^ 128 * rowNum r' end.
(** The random points that fill a bin: the points [px], the values [V]. *)
Definition filling (K : fops) (px : nat -> fT K) (V : list (fT K)) (i : nat) : fT K * fT K := (px i, nth i V (f0 K)).
(** The same points, with another value at the first of them. *)
Definition revalue (K : fops) (rnd : nat -> fT K * fT K) (b : fT K) (i : nat) : fT K * fT K := match i with O => ((rnd O).1, b) | S _ => rnd i end.
(** All points of a bin are different. *)
Definition pointsOk (K : fops) (rep : fT K -> N) (rnd : nat -> fT K * fT K) (d : nat) (X : list N) : Prop :=
  NoDup (X ++ map (fun i => rep (rnd i).1) (seq 0 (d - length X))).
