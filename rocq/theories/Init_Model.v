(** [init] of the malicious-secure protocols RR17a, RR17b, GRR18 and RR16 (libPSI/MPSI): the hash seed, the base OTs, and the threads that set up the OT extensions.

    Files: aR = Rr17/Rr17a/Rr17aMPsiReceiver.cpp, aS = Rr17/Rr17a/Rr17aMPsiSender.cpp, bR = Rr17/Rr17b/Rr17bMPsiReceiver.cpp, bS = Rr17/Rr17b/Rr17bMPsiSender.cpp,
    gR = Grr18/Grr18MPsiReceiver.cpp, gS = Grr18/Grr18MPsiSender.cpp, cR = Rr16/AknBfMPsiReceiver.cpp, cS = Rr16/AknBfMPsiSender.cpp. *)
From Verif Require Import Base Partition_Model Sched_Model Threads_Model.

(** ** The hash seed *)

(** aR:100-118, aS:84-97, bR:104-122, bS:91-104, gR:111-129, gS:87-100, cR:50-84, cS:35-68: [commit] is cryptoTools [Commit]. The messages to the other party in
    order, and the seed at the end. [theirComm] is received and not looked at again. Blocks are numbers, [operator^] is [N.lxor]. *)
Definition firstMsg (commit : N -> N) (mySeed : N) : N := commit mySeed.
(** For example aR:111, aS:93, cR:80, cS:64: the seed itself, whatever the
    commitment of the other party was. *)
Definition secondMsg (mySeed theirComm : N) : N := mySeed.
(** aR:118, aS:97, bR:122, bS:104, gR:129, gS:100, cR:84, cS:68. *)
Definition hashingSeed (mySeed theirComm theirSeed : N) : outcome N := Done (N.lxor mySeed theirSeed).

(** ** Base OTs *)

(** What a party holds after OTs in which it chose: choice bits and
    messages. For example aR:135-137, 158-162, aS:121-125. *)
Record chosen := mkChosen { choiceBits : list bool; choiceMsgs : list N }.
(** What each party ends up with: message pairs as the base of its OT
    receiver ([otRecv.setBaseOts]), choices as the base of its OT sender
    ([otSend.setBaseOts]). For example aR:155, 165, aS:135, 152. *)
Record bases := mkBases { recvBase : list (N * N); sendBase : chosen }.
(** [gOtExtBaseOtCount] of libOTe. Used at aR:134-152, aS:115-142. *)
Definition kosBase : nat := 128.

Section ots.
(** External: [baseOt cs] runs public key OTs with choices [cs], giving the pairs of the one and the messages of the other party. [kos pairs ch cs] extends base OTs: the
    party that holds [pairs] chooses with [cs], the party that holds [ch] gets pairs. *)
Variable baseOt : list bool -> list (N * N) * list N.
Variable kos : list (N * N) -> chosen -> list bool -> list (N * N) * list N.

(** aR:134-165 with aS:115-152; the same in gR:146-176 with gS:119-156. [count] is [baseOtCount]; [cs], [csR] are the receiver's random choices, [csS] the sender's
    ([count + 128] of them). Result: receiver, sender. *)
Definition rr17aBase (count : nat) (cs csS csR : list bool) : bases * bases :=
  let '(baseMsg, kosSendBase) := baseOt cs in
  let '(sendBaseMsg, recvBaseMsg) := kos baseMsg (mkChosen cs kosSendBase) csS in
  let kcoRecvBase := take count sendBaseMsg in
  let kosRecvBase := drop count sendBaseMsg in
  let kcoSendBase := mkChosen (take count csS) (take count recvBaseMsg) in
  let kosSend := mkChosen (take kosBase (drop count csS)) (drop count recvBaseMsg) in
  let '(sendBaseMsg2, kcoSendBase2) := kos kosRecvBase kosSend csR in
  (mkBases kcoRecvBase (mkChosen csR kcoSendBase2), mkBases sendBaseMsg2 kcoSendBase).
(** bR:138-151 with bS:119-133: one direction; the receiver's pairs and the sender's choices. *)
Definition rr17bBase (cs csS : list bool) : list (N * N) * chosen :=
  let '(baseMsg, kosSendBase) := baseOt cs in
  let '(sendBaseMsg, recvBaseMsg) := kos baseMsg (mkChosen cs kosSendBase) csS in
  (sendBaseMsg, mkChosen csS recvBaseMsg).
End ots.

(** ** OT counts *)

(** aR:180-184, 189-193, aS:166-171, 176-180: instance [i] of [total], each way. *)
Definition aCount (P : rr17a) (i : nat) : N :=
  let '(s, e) := evenSplit (aBins P) (N.of_nat (aT P)) (N.of_nat i) in e * aCap P - s * aCap P.
(** bR:168-170, bS:148-152. *)
Definition bCount (P : rr17b) (i : nat) : N := ((bBins P + N.of_nat (bT P) - 1) mod two64) / N.of_nat (bT P) * bCap P.

(** ** Threads *)

(** Sizes of the commitment and of the seed; the conversation of the base OTs; the conversation that sets up OT instance [i] with the given number of OTs (in RR17a two
    setups, first the one with the PSI sender as OT sender); threads =
    channels; the counts of the sender and of the receiver. The sizes of
    what is sent at aR:106-165, 201-241, aS:88-152, 183-228 and at the
    corresponding lines of RR17b. *)
Record initP := mkInit { iComm : N; iSeed : N; iBase : list (bool * N); iExt : nat -> N -> list (bool * N); iT : nat; iCntS : nat -> N; iCntR : nat -> N }.
(** The number of the barrier that stands for the start of the threads,
    aR:201-241, aS:183-228. *)
Definition startB : nat := 5.
(** aR:106-113, aS:88-95, bR:110-117, bS:95-102, gR:117-124, gS:91-98. *)
Definition toss (me : bool) (P : initP) : list ev :=
  [Snd (Chan 0 me) (iComm P); Get (Chan 0 (negb me)) 0 (iComm P); Snd (Chan 0 me) (iSeed P); Get (Chan 0 (negb me)) 1 (iSeed P)].
(** aR:201-241, aS:183-228, bR:178-213, bS:155-180: the calling thread sets up the last instance on channel 0; thread [i] sets up instance [i] on channel [i + 1]. This is
    the party [me] on channel [c]. *)
Definition initOn (me : bool) (P : initP) (cnt : nat -> N) (c : nat) : list ev :=
  match c with
  | O => toss me P ++ talk me 0 2 (iBase P) ++ [Snd (Barrier me startB) 0] ++ talk me 0 (2 + heard me (iBase P)) (iExt P (iT P - 1) (cnt (iT P - 1)%nat)) ++
         [Wai (Barrier me joinB) (iT P - 1)]
  | S i => Wai (Barrier me startB) 1 :: talk me c 0 (iExt P i (cnt i)) ++ [done me]
  end.
(** The channels of both parties: aR:201-241, aS:183-228, bR:178-213,
    bS:155-180. *)
Definition initScripts (P : initP) : list (list ev) := map (initOn true P (iCntS P)) (seq 0 (iT P)) ++ map (initOn false P (iCntR P)) (seq 0 (iT P)).
(** gR:117-195, gS:91-171: no threads, [splitBase] sends nothing. *)
Definition grr18InitScripts (P : initP) : list (list ev) := [toss true P ++ talk true 0 2 (iBase P); toss false P ++ talk false 0 2 (iBase P)].
(** cR:53-82, cS:37-66 with one channel: the receive of the commitment is posted before the OTs, and awaited after them; [iBase] is the conversation of [mAknOt.init]. *)
Definition tossLate (me : bool) (P : initP) : list ev :=
  Snd (Chan 0 me) (iComm P) :: talk me 0 1 (iBase P) ++
  [Get (Chan 0 (negb me)) 0 (iComm P); Snd (Chan 0 me) (iSeed P); Get (Chan 0 (negb me)) (1 + heard me (iBase P)) (iSeed P)].
(** Both parties: cR:53-82, cS:37-66. *)
Definition rr16InitScripts (P : initP) : list (list ev) := [tossLate true P; tossLate false P].
