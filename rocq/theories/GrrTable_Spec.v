(** What the tables of GRR18 are to achieve. *)
From Coq Require Import Reals.
From Verif Require Import Base Grr18_Model GrrNoise_Model GrrNoise_Spec.
Local Open Scope N_scope.

(** [n (n - 1) ... (n - k + 1)]. *)
Fixpoint falling (n : N) (k : nat) : N := match k with O => 1 | S k' => falling n k' * (n - N.of_nat k') end.
(** The probability that a bin receives [k] of [n] items, each item falling into one of [m] bins: [n choose k] times [(m-1)^(n-k) / m^n]. *)
Definition sizeLaw (n m : N) (k : nat) : R :=
  (sizeR (falling n k) / sizeR (falling (N.of_nat k) k) * (sizeR (m - 1) ^ (N.to_nat n - k) / sizeR m ^ N.to_nat n))%R.
(** The privacy parameter from thousandths. *)
Definition epsR (eps : N) : R := (sizeR eps / 1000)%R.
(** The expected number of bins whose noisy size is so low that the entry of the table for it is below the size: the announced load is then the size itself. *)
Definition exposedBins (n m eps : N) (c : loadCfg) : R :=
  (sizeR m * rsum (seq 0 (S (N.to_nat n))) (fun k => sizeLaw n m k * shortProb (lapCdf (epsR eps)) 0 c (N.of_nat k) (N.of_nat k)))%R.
(** The expected number of bins with more than [B] items. *)
Definition overflowBins (n m B : N) : R :=
  (sizeR m * rsum (seq 0 (S (N.to_nat n))) (fun k => sizeLaw n m k * (if decide (B < N.of_nat k)%N then 1 else 0)))%R.
