(** Vocabulary for accidental matches: lists of random masks, and which values they are compared with. *)
From Verif Require Import Base BinProb_Spec.
Local Open Scope nat_scope.

(** [(j, v)]: the mask at position [j] is compared with the value [v]. *)
Notation comparison := (nat * nat)%type.
(** Some compared masks are equal. *)
Definition matches (cs : list comparison) (f : list nat) : bool :=
  existsb (fun c => match f !! c.1 with Some w => w =? c.2 | None => false end) cs.
(** Among all lists of [m] masks with [q] possible values, the number of those with a match. *)
Definition matchCount (q m : nat) (cs : list comparison) : N := N.of_nat (length (List.filter (matches cs) (placements q m))).
(** The chance of a match is at most [num / den]. *)
Definition chance_le (q m : nat) (cs : list comparison) (num den : N) : Prop :=
  (matchCount q m cs * den <= num * N.of_nat q ^ N.of_nat m)%N.
(** It is larger than [num / den]. *)
Definition chance_gt (q m : nat) (cs : list comparison) (num den : N) : Prop :=
  (num * N.of_nat q ^ N.of_nat m < matchCount q m cs * den)%N.

(** Every one of [m] received masks is compared with every own mask. *)
Definition allPairs (m : nat) (own : list nat) : list comparison :=
  concat (map (fun i => map (fun v => (i, v)) own) (seq 0 m)).
(** Tables by hash function: the [i]-th item of the other party has [h] masks [h*i], ..., [h*i+h-1]; an own item that
    was placed by hash function [k] and has mask [v] is compared with mask [k] of every item of the other party. *)
Definition tablePairs (h nS : nat) (own : list (nat * nat)) : list comparison :=
  concat (map (fun i => map (fun o => (h * i + o.1, o.2)) own) (seq 0 nS)).
(** The number of values of a mask of the given number of bytes. *)
Definition maskValues (bytes : N) : nat := N.to_nat (2 ^ (8 * bytes)).
