(** Model of the choice of the OT input length in [init] of RR17a, RR17b and GRR18 (libPSI/MPSI), the third argument of
    [configure] of the OT classes of libOTe.

    Simplifications. [configure] belongs to libOTe and is outside of /repo: it is told the number of input bits, and an
    encoding depends on the first bits of the OT input only ([otReads]). [log2ceil] of cryptoTools is the rounded up binary
    logarithm for [n > 0]. *)
From Verif Require Import Base Rr17_Model.

(** [u64(-1)], the value of the argument [inputBitSize] that asks for hashing to a smaller domain (Rr17aMPsiReceiver.cpp:78). *)
Definition noBitSize : N := two64 - 1.

(** Rr17aMPsiReceiver.cpp:78-87, Rr17aMPsiSender.cpp:63-72, Rr17bMPsiReceiver.cpp:79-90, Rr17bMPsiSender.cpp:72-81,
    Grr18MPsiReceiver.cpp:89-98, Grr18MPsiSender.cpp:66-75: [mHashToSmallerDomain] and the number of bits the OTs are configured
    for; arithmetic modulo 2^64. *)
Definition otWidth (statSec : N) (n : nat) (inputBitSize : N) : bool * N :=
  if inputBitSize =? noBitSize then (true, (statSec + phase n + (two64 - 1)) mod two64)
  else (false, (inputBitSize + (two64 - phase n)) mod two64).

(** What an OT that reads [m] bits sees of an OT input (the inputs are passed at Rr17aMPsiReceiver.cpp:445-448,
    Rr17bMPsiReceiver.cpp:379-383, Grr18MPsiReceiver.cpp:400-404). *)
Definition otReads (m x : N) : N := x mod 2 ^ m.
