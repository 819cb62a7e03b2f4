(** Vocabulary of the statements about a run of PRTY with the smallest communication. *)
From Verif Require Import Base Prty_Model Prty_Spec Balanced_Model PrtyDiff_Model PrtyDiff_Spec BestRun_Model.

(** The masks of the receiver's items differ in the first four bytes. *)
Definition masksDistinct32 (P : prty) (F : nat) (R : list N) : Prop :=
  forall h h' x y, h < 2 -> h' < 2 -> x ∈ R -> y ∈ R -> recvMask P F (point h x) mod 2 ^ 32 = recvMask P F (point h' y) mod 2 ^ 32 -> x = y.
(** Sorting, threads and [permute] only change the order; the memory holds bytes. *)
Definition envFine (e : bestEnv) : Prop := (forall h l, bSort e h l ≡ₚ l) /\ forall h i, bMem e h i < 256.
(** The differences of the masks [ms] fit into the buffer of [1.02 * n * h] bytes with at least one byte left, and no two neighbours are equal in [h] bytes. *)
Definition roomFor (h b : nat) (ms : list N) : Prop :=
  (b + h * (length ms - 1) + b * escapes h ms < length ms * h * 102 / 100)%nat /\ distinctLow h ms.
