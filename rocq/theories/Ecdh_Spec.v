(** Vocabulary of the statements about the Diffie-Hellman PSI. *)
From Verif Require Import Base.

(** Positions of the items of [R] that are in [S], increasing. *)
Definition commonIn (R S : list N) : list N :=
  omap (fun ix : nat * N => if bool_decide (ix.2 ∈ S) then Some (N.of_nat ix.1) else None) (zip (seq 0 (length R)) R).
(** The block both parties should derive for an item with hash [h] from the scalars [k1], [k2] applied in this order. *)
Definition dhBlock {P : Type} (smul : P -> N -> P) (pt : N -> P) (enc : P -> N) (roPoint : N -> N) (h k1 k2 : N) : N :=
  roPoint (enc (smul (smul (pt h) k1) k2)).
