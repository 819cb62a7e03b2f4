(** Probabilities of the noisy numbers of GRR18. *)
From Coq Require Import Reals.
From Verif Require Import Base Grr18_Model GrrNoise_Model.
Local Open Scope N_scope.

(** Distribution functions: a sample of [std::exponential_distribution(eps)], and one with a random sign. *)
Definition expCdf (eps x : R) : R := if Rlt_dec x 0 then 0%R else (1 - exp (- (eps * x)))%R.
Definition lapCdf (eps x : R) : R := if Rlt_dec x 0 then (exp (eps * x) / 2)%R else (1 - exp (- (eps * x)) / 2)%R.

(** The real numbers that a conversion to an integer type, which cuts off the fraction, turns into [v] lie between: *)
Definition convLo (v : Z) : R := if (0 <? v)%Z then IZR v else (IZR v - 1)%R.
Definition convHi (v : Z) : R := if (v <? 0)%Z then IZR v else (IZR v + 1)%R.
(** The probability that [base + noise], converted, is [v], if the noise has distribution function [F]. *)
Definition convLaw (F : R -> R) (base : R) (v : Z) : R := (F (convHi v - base) - F (convLo v - base))%R.

(** The integers that can come out. *)
Definition ints : list Z := seqZ (- 2 ^ 64) (2 ^ 65).
Definition rsum {A} (l : list A) (f : A -> R) : R := fold_right (fun x r => (f x + r)%R) 0%R l.
(** The probability of an event about independent integers, each with its law. *)
Fixpoint prob (laws : list (Z -> R)) (ev : list Z -> bool) : R :=
  match laws with
  | [] => if ev [] then 1%R else 0%R
  | law :: laws' => rsum ints (fun v => (law v * prob laws' (fun vs => ev (v :: vs)))%R)
  end.

Definition sizeR (s : N) : R := IZR (Z.of_N s).
(** [computeLoads] with a value for each bin: size plus noise, converted. Does it return loads in [E]? *)
Definition loadsIn (c : loadCfg) (sizes : list N) (E : list N -> bool) (vs : list Z) : bool :=
  match computeLoads c (fun i => default 0 (vs !! i) - Z.of_N (default 0%N (sizes !! i)))%Z sizes with Done (ls, _) => E ls | _ => false end.
(** The probability that [computeLoads] returns loads in [E]. [off]: the constant added to size and noise. *)
Definition loadsProb (F : R -> R) (off : R) (c : loadCfg) (sizes : list N) (E : list N -> bool) : R :=
  prob (map (fun s => convLaw F (sizeR s + off)) sizes) (loadsIn c sizes E).

(** The modes of [computeLoads] with two-sided noise. *)
Definition twoSided (c : loadCfg) : Prop := cLap c = true \/ cLap c = false /\ cCw c = (-1)%Z /\ cOneSided c = false.
(** The probability that the noise of a bin of size [s] is such that an empty bin with the same noisy value would get a load below [need]. *)
Definition shortProb (F : R -> R) (off : R) (c : loadCfg) (s need : N) : R :=
  prob [convLaw F (sizeR s + off)] (fun vs => match vs with v :: _ => match binLoad c v 0 with Done l => l <? need | _ => false end | [] => false end).

(** The probability that the announced number of masks is in [E]. *)
Definition masksProb (eps max buffer : R) (sizes loads : list N) (E : N -> bool) : R :=
  prob [convLaw (lapCdf (eps / max)) buffer] (fun vs => match vs with v :: _ => match announcedMasks sizes loads v with Done n => E n | _ => false end | [] => false end).
