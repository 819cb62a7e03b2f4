(** Vocabulary of the statement about RR17a with several channels. *)
From Verif Require Import Base Rr17a_Model.

(** The same random choices and schedules with another permutation of the sender's rows of masks. *)
Definition withPerm (rd : rand) (perm : list nat) : rand := mkRand (rDraw rd) (rShuf rd) perm (rOrdR rd) (rOrdS rd) (rPlaces rd) (rOut rd).
(** Thread [t] of [T] has bin [b] of [nb]. *)
Definition ownsBin (nb T t b : nat) : Prop := (t * nb / T <= b < (t + 1) * nb / T)%nat.
(** The channel on which the [q]th of [num] masks travels: masks are cut in chunks of equal length, at most 2^20 and else one per channel. *)
Definition channelOf (num T q : nat) : nat := ((q / N.to_nat (N.min (2 ^ 20) ((N.of_nat num + N.of_nat T - 1) / N.of_nat T))) mod T)%nat.
