(** Vocabulary for the overflow of bins: all placements of [n] balls in [b] bins. *)
From Verif Require Import Base.
Local Open Scope nat_scope.

Fixpoint placements (b n : nat) : list (list nat) :=
  match n with O => [[]] | S n' => concat (map (fun j => map (cons j) (placements b n')) (seq 0 b)) end.
(** The number of balls in bin [j]. *)
Definition load (f : list nat) (j : nat) : nat := length (List.filter (Nat.eqb j) f).
(** Some bin gets more than [size] balls. *)
Definition overflows (b size : nat) (f : list nat) : bool := existsb (fun j => size <? load f j) (seq 0 b).
(** The number of placements in which that happens. *)
Definition overflowCount (b n size : nat) : N := N.of_nat (length (List.filter (overflows b size) (placements b n))).
