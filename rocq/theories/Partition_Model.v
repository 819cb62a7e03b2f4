(** How the multi-threaded protocols split work over threads (all in /repo/libPSI). A range is
    a pair [start, end) used as [for (i = start; i < end; ...)]. 64-bit products wrap. *)
From Verif Require Import Base.

(** [n * t / T] .. [n * (t + 1) / T]: PSI/ECDH/EcdhPsiReceiver.cpp:58-59 and 175-176,
    EcdhPsiSender.cpp:53-54, MPSI/Grr18/Grr18MPsiSender.cpp:264-267 and 551-552,
    Grr18MPsiReceiver.cpp:275-280, 575-576, MPSI/Rr17/Rr17a/Rr17aMPsiReceiver.cpp:180-181 (bins),
    MPSI/Rr17/Rr17b/Rr17bMPsiSender.cpp:275-276, Rr17bMPsiReceiver.cpp:287-288 (items) and
    347-348 (bins), PSI/Prty/PrtyReceiver.cpp:92-93, 222-223. *)
Definition evenSplit (n T t : N) : N * N :=
  ((n * t mod two64) / T, (n * (t + 1) mod two64) / T).

(** [c = (n + T - 1) / T], [t * c] .. [min((t + 1) * c, n)]:
    MPSI/Rr17/Rr17b/Rr17bMPsiSender.cpp:251, 279-280 (bins) and 456-458 (items),
    Rr17bMPsiReceiver.cpp:430-432 (items). *)
Definition ceilSplit (n T t : N) : N * N :=
  let c := ((n + T - 1) mod two64) / T in
  ((t * c) mod two64, N.min (((t + 1) * c) mod two64) n).

(** cryptoTools [roundUpTo(val, step)]: next multiple of [step]. Used at
    DrrnPsiServer.cpp:372-373, Rr17aMPsiReceiver.cpp:287. *)
Definition roundUpTo (v step : N) : N := ((v + step - 1) / step) * step.

(** PSI/Dcw/DcwRBfPsiSender.cpp:77-78 and DcwRBfPsiReceiver.cpp:76-77. *)
Definition otSplit (m T t : N) : N * N :=
  (N.min (roundUpTo ((t * m mod two64) / T) 128) m,
   N.min (roundUpTo (((t + 1) * m mod two64) / T) 128) m).

(** The bins of channel [t] at the RR17b sender (Rr17bMPsiSender.cpp:279-280) and receiver
    (Rr17bMPsiReceiver.cpp:347-348). *)
Definition rr17bSenderBins (binCount T t : N) : N * N := ceilSplit binCount T t.
(** Rr17bMPsiReceiver.cpp:347-348. *)
Definition rr17bReceiverBins (binCount T t : N) : N * N := evenSplit binCount T t.
