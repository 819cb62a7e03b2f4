(** Model of the estimate of the overflow probability of a bin, [getBinOverflowProb] in libPSI/Tools/SimpleIndex.cpp:38-75, as the estimator of
    [getBinSize] in SimpleIndex_Model.v (which has the two checks of lines 40-48), and of its use in SimpleHasher.cpp.

    Simplifications. The floating-point numbers ([cpp_bin_float<16>]) are exact: [sum] is a number over [numBins ^ numBalls]; only its numerator is computed.
    [sec] is a logarithm: it is represented by its argument, of which also only the numerator is kept; zero for [-inf]. [2 ^ epsilon] is the fraction [cn / cd].
    The result is rounded down to an integer: it is only compared with integers. *)
From Coq Require Import QArith.
From Verif Require Import Base SimpleIndex_Model SimpleHasher_Model.

(** [boost::math::binomial_coefficient], by its recursion.
    SimpleIndex.cpp:61 (the library function is outside of /repo). *)
Fixpoint choose (n k : nat) : N :=
  match k, n with
  | O, _ => 1
  | S _, O => 0
  | S k', S n' => choose n' k' + choose n' k
  end.

(** SimpleIndex.cpp:60-61, the summand [i], as numerator over [b ^ n]. *)
Definition term (b : N) (n i : nat) : N := b * (choose n i * (b - 1) ^ N.of_nat (n - i)).
(** SimpleIndex.cpp:66, 58: [abs(sec - sec2) > epsilon]; the difference of infinities is not a number and compares false. *)
Definition far (cn cd x y : N) : bool :=
  if (x =? 0) && (y =? 0) then false
  else if (x =? 0) || (y =? 0) then true
  else cn * N.min x y <? cd * N.max x y.
(** SimpleIndex.cpp:58-71, the loop: at most as many rounds as there are numbers from [getBinSize + 1] to [numBalls]. [go]: [diff > epsilon]. The result is [sec]. *)
Fixpoint probLoop (cn cd b : N) (n rounds i : nat) (sum sec : N) (go : bool) : N :=
  match rounds with
  | O => sec
  | S rounds' => if go then let sum' := sum + term b n i in probLoop cn cd b n rounds' (S i) sum' sum' (far cn cd sec sum') else sec
  end.
(** SimpleIndex.cpp:52-74: [sec] is zero and [diff] is one at the beginning. [2 ^ 64] stands for an infinite result. *)
Definition estimate (cn cd b n size : N) : Q :=
  let D := b ^ n in
  let sec := probLoop cn cd b (N.to_nat n) (N.to_nat (n - size)) (N.to_nat (size + 1)) 0 D true in
  inject_Z (if sec =? 0 then 2 ^ 64 else if D <=? sec then 0 else Z.of_N (N.log2 (D / sec))).

(** SimpleHasher.cpp:62-75, 463-469, [SimpleHasher::init] with [bins] the number of bins ([max(1, n / binScaler)], line 64). The size from the tables
    (lines 73-461) is overwritten. [None]: [get_bin_size] does not return. *)
Definition shInit (cn cd : N) (fuel : nat) (bins n secParam : N) : option (outcome (N * hasher)) :=
  match getBinSize (estimate cn cd) fuel bins n secParam with
  | Done m => match hInit (N.to_nat bins) m with Done h => Some (Done (m, h)) | Thrown h => Some (Thrown (m, h)) | _ => None end
  | _ => None
  end.
