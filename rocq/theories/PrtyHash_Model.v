(** Model of the hashing of both parties of PRTY, libPSI/PSI/Prty/PrtyReceiver.cpp ("Receiver") and PrtySender.cpp ("Sender"), functions [init] and
    [output]: the receiver's bins are a [BalancedIndex], the sender's a [SimpleIndex].

    [aes key]: AES under [key], an arbitrary function. Sender:60 reads [simple.init(, , recvNumDummies)], which is not valid C++: the number of bins and
    the number of items are arguments here, so the theorems speak about every way to fill the gap. The capacity of the bins is an argument, too. *)
From Verif Require Import Base SimpleIndex_Model Balanced_Model.

(** PrtyDefines.h:27-28. *)
Definition recvNumDummies : N := 1.
(** PrtyDefines.h:28. *)
Definition recvMaxBinSize : N := 40.

(** BalancedIndex.cpp:46, [_mm_set_epi32(4253465, 3434565, 234435, 23987025)]. *)
Definition balancedKey : N := 23987025 + 2 ^ 32 * 234435 + 2 ^ 64 * 3434565 + 2 ^ 96 * 4253465.

(** Receiver:59, 75. *)
Definition prtyRecvBins (aes : N -> N -> N) (ord : nat -> list nat -> list nat) (ys : list N) (rs : list N) : outcome (list (list bitem)) :=
  balanced ord (aes balancedKey) recvMaxBinSize recvNumDummies ys rs.
(** Sender:60, 99-102: [cc] is [CCBlock]; SimpleIndex.h:92: three hash functions when the fourth argument is not given. *)
Definition prtySendBins (aes : N -> N -> N) (cc m n mx : N) (xs : list N) : outcome SIndex :=
  siInsert (aes cc) (siInit m n 3 mx) xs.
