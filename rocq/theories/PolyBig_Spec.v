(** Vocabulary of the statements about the big polynomial of PRTY. *)
From Verif Require Import Base PolyTree_Model PolyTree_Spec.

(** [K] is the field of the integers modulo [p], with [rep] and [ofN] between its elements and numbers. *)
Definition modular (K : fops) (rep : fT K -> N) (ofN : N -> fT K) (p : N) : Prop :=
  isField K /\ (forall a, rep a < p) /\ (forall a, ofN (rep a) = a) /\ (forall n, rep (ofN n) = n mod p) /\
  (forall a b, rep (fadd K a b) = (rep a + rep b) mod p) /\ (forall a b, rep (fmul K a b) = (rep a * rep b) mod p).
(** The polynomial [q] takes the values [ys] at [xs]. *)
Definition through (K : fops) (rep : fT K -> N) (ofN : N -> fT K) (q : list (fT K)) (xs ys : list N) : Prop := map (fun x => rep (evalAt K q (ofN x))) xs = ys.
