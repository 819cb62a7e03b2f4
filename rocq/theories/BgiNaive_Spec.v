(** What the naive evaluation of a whole tree computes, apart from the loop that computes it. *)
From Verif Require Import Base Bgi_Model Bgi_Spec.

(** The branch taken at level [d] of a tree with [D] levels for leaf [idx]: never the right one in the upper half of
    the tree, and below it the one of bit [d] of the leaf. *)
Definition naiveBranch (D : nat) (idx : N) (d : nat) : bool := (D <=? 2 * d + 1)%nat && N.testbit idx (N.of_nat d).
(** The branch a point of the tree needs: the bits of the leaf from the top. *)
Definition rightBranch (D : nat) (idx : N) (d : nat) : bool := N.testbit idx (N.of_nat (D - 1 - d)).

(** The seed reached from [s] with the given branches, the first of them at level [d]. *)
Fixpoint walk (aes : bool -> N -> N) (branch : nat -> bool) (d : nat) (s : N) (cws : list N) : N :=
  match cws with
  | [] => s
  | cw :: cws' => walk aes branch (S d) (traverseOne aes s cw (branch d)) cws'
  end.

(** The bit of position [p]: bit [i] of the pad of its leaf, in the order of the bits, and without the group word. *)
Definition naiveBit (aes : bool -> N -> N) (k0 : N) (cws : list N) (gs : nat) (p : N) : bool :=
  let L := N.of_nat gs * 128 in
  let i := p mod L in
  N.testbit (leafBlock aes (walk aes (naiveBranch (length cws) (p / L)) 0 k0 cws) (N.to_nat (i / 128))) (i mod 128).
