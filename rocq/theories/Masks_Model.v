(** The lengths of the masks that the parties compare. *)
From Coq Require Import Reals.
From Verif Require Import Base.
Local Open Scope N_scope.

(** [u64(s + std::log2(x) + 7) / 8] for integers [s], [x]: the conversion cuts off the fraction, so that the
    logarithm may be rounded down first. The logarithm of zero is minus infinity, whose conversion is undefined.
    Simplification: the rounding of [double] is not modelled. Used for
    KkrtPsiSender.cpp:348, KkrtPsiReceiver.cpp:125, EcdhPsiReceiver.cpp:47,
    EcdhPsiSender.cpp:41 and the other lines cited below. *)
Definition log2Bytes (s x : N) : outcome N := if x =? 0 then UB else Done ((s + N.log2 x + 7) / 8).
(** KkrtPsiReceiver.cpp:125 and KkrtPsiSender.cpp:348. The product is a [u64]. *)
Definition kkrtMaskBytes (ssp nS nR : N) : outcome N := log2Bytes ssp ((nS * nR) mod two64).
(** EcdhPsiReceiver.cpp:47 and EcdhPsiSender.cpp:41: [u64(40 + 2*log2(n) + 7) / 8]; twice the logarithm is the logarithm of the square.
    The parameter given to init (EcdhPsiReceiver.cpp:25-28) is not used. *)
Definition ecdhMaskBytes (secParam n : N) : outcome N := log2Bytes 40 (n * n).
(** PrtySender.cpp:74 and PrtyReceiver.cpp:71: [(40 + log2(theirs * mine) + 7) / 8] in floating point, converted at
    the end; the security parameter given to init is not used. *)
Definition prtyMaskBytes (ssp nT nM : N) : outcome N := log2Bytes 40 ((nT * nM) mod two64).

(** Grr18MPsiSender.cpp:204, Grr18MPsiReceiver.cpp:218, Rr17aMPsiSender.cpp:245, Rr17aMPsiReceiver.cpp:287,
    Rr17bMPsiReceiver.cpp:238: [roundUpTo(u64(mStatSecParam + 2 * std::log(mN * mBins.mMaxBinSize) - 1), 8) / 8];
    [std::log] is the natural logarithm. Simplification: real numbers instead of [double]. *)
Definition rr17MaskBits (ssp x : N) : Z := Int_part (IZR (Z.of_N ssp) + 2 * ln (IZR (Z.of_N x)) - 1)%R.
(** The rounding to bytes, lines as for [rr17MaskBits]. *)
Definition rr17MaskBytes (ssp n B : N) : outcome N :=
  let x := (n * B) mod two64 in
  if x =? 0 then UB
  else let z := rr17MaskBits ssp x in
       if (z <? 0)%Z then UB else Done ((Z.to_N z + 7) / 8 * 8 / 8).
