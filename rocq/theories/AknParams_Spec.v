(** Vocabulary of the statements about the parameters of RR16. *)
From Coq Require Import Reals.
From Verif Require Import Base.

(** The probability that the number of heads among [m] independent coins, each heads with probability [p], is in [E]. *)
Fixpoint coins (p : R) (m : nat) (E : nat -> bool) : R :=
  match m with
  | O => if E O then 1%R else 0%R
  | S m => (p * coins p m (fun i => E (S i)) + (1 - p) * coins p m E)%R
  end.
(** The OTs that are opened are chosen independently with probability [p]. An honest receiver has [ones] OTs with choice one: are more than [thr] of them opened? *)
Definition tooMany (thr : N) (opened : nat) : bool := thr <? N.of_nat opened.
(** Of [ots] OTs fewer than [bits] are left. *)
Definition tooFew (ots bits : N) (opened : nat) : bool := ots - N.of_nat opened <? bits.
(** A receiver with [ones] OTs with choice one is not caught, and the number [r] of those left is so large that [h] random positions of the filter of [bits] bits
    are all among them with probability more than 2^-128, (r / bits)^h > 2^-128. *)
Definition cheats (thr h bits : N) (ones opened : nat) : bool :=
  (N.of_nat opened <=? thr) && (bits ^ h <? 2 ^ 128 * N.of_nat (ones - opened) ^ h).
