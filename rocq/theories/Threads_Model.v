(** What each thread of the multi-threaded protocols does on its channel and at the barriers, in program order: [sendInput] of RR17a, RR17b, GRR18 and RR16 (all in
    libPSI/MPSI), as scripts for Sched_Model.v.

    Simplifications for the whole file.
    - Computations between these events are left out, except the few given by [Act]. They do not throw.
    - OT corrections are messages whose size is counted in OTs ([sendCorrection], [recvCorrection], one message each). The OT checks
      of libOTe are arbitrary conversations [chk] (true: a message of the PSI sender) in which each party sends and expects the same messages.
    - Each thread ends with an arrival at a barrier for which the caller waits ([join]). *)
From Verif Require Import Base Partition_Model Sched_Model.

(** A conversation on channel [c] as seen by one party ([me]: the PSI
    sender?); [j]: receives posted before. Used for the OT checks
    Rr17aMPsiReceiver.cpp:541-542, Rr17bMPsiReceiver.cpp:417,
    Grr18MPsiReceiver.cpp:523-530. *)
Fixpoint talk (me : bool) (c j : nat) (m : list (bool * N)) : list ev :=
  match m with
  | [] => []
  | (d, k) :: m' => if Bool.eqb d me then Snd (Chan c d) k :: talk me c j m' else Get (Chan c d) j k :: talk me c (S j) m'
  end.
(** Number of receives of [me] in it: Rr17aMPsiReceiver.cpp:541-542,
    Rr17bMPsiReceiver.cpp:417, Grr18MPsiReceiver.cpp:523-530. *)
Definition heard (me : bool) (m : list (bool * N)) : nat := length (List.filter (fun e => negb (Bool.eqb e.1 me)) m).

(** Barriers: [joinB] for the join, [permB] for the promise of the
    permutation thread, [barA], [barB], [barC] in program order. For example
    Rr17aMPsiReceiver.cpp:404-407 ([barA]) and 564-567 ([barB]),
    Rr17aMPsiSender.cpp:280-305 ([permB]), 598-601 ([joinB]). *)
Definition barA : nat := 0.
(** For example Rr17aMPsiReceiver.cpp:564-567. *)
Definition barB : nat := 1.
(** AknBfMPsiReceiver.cpp:339-369. *)
Definition barC : nat := 2.
(** Rr17aMPsiSender.cpp:280-305. *)
Definition permB : nat := 3.
(** Rr17aMPsiSender.cpp:598-601, Rr17aMPsiReceiver.cpp:640-641. *)
Definition joinB : nat := 4.
(** The end of a thread, joined at Rr17aMPsiSender.cpp:598-601,
    Rr17aMPsiReceiver.cpp:640-641. *)
Definition done (p : bool) : ev := Snd (Barrier p joinB) 0.

(** [for (bIdx = s; bIdx < e;) step = min(stepSize, e - bIdx) ...]: the
    pieces, first index and count. Rr17aMPsiReceiver.cpp:429-432, 482-485. *)
Fixpoint pieces (stepSize : N) (fuel : nat) (s e : N) : list (N * N) :=
  match fuel with
  | O => []
  | S f => if s <? e then let k := N.min stepSize (e - s) in (s, k) :: pieces stepSize f (s + k) e else []
  end.
(** Rr17aMPsiReceiver.cpp:429-432, 482-485: all pieces of a range. *)
Definition piecesOf (stepSize : N) (r : N * N) : list (N * N) := pieces stepSize (N.to_nat (r.2 - r.1)) r.1 r.2.

(** ** RR17a *)

(** Rr17aMPsiReceiver.cpp:412-413, 429-464, 482-485, Rr17aMPsiSender.cpp:409-410, 421-456, 474-479: correction messages of a thread, each way. *)
Definition rrCorr (stepSize cap : N) (r : N * N) : list N := map (fun p : N * N => p.2 * cap) (piecesOf stepSize r).
(** Rr17aMPsiSender.cpp:311-315, 575-578, Rr17aMPsiReceiver.cpp:570-587: mask messages of a thread, [total = mN * mMaxBinSize]; [fuel] at least the number of chunks. *)
Fixpoint strideChunks (per total size : N) (num T : N) (fuel : nat) (i : N) : list N :=
  match fuel with
  | O => []
  | S f => if i <? num then (N.min per (total - i * per) * size) :: strideChunks per total size num T f (i + T) else []
  end.
(** Rr17aMPsiSender.cpp:311-315, 575-578, Rr17aMPsiReceiver.cpp:570-587: all
    messages of thread [t]. *)
Definition rrMasks (total size : N) (T t : nat) : list N :=
  let per := N.min (2 ^ 20) ((total + N.of_nat T - 1) / N.of_nat T) in
  let num := (total + (per - 1)) / per in
  strideChunks per total size num (N.of_nat T) (N.to_nat num) (N.of_nat t).

(** Parameters: step size, bins, bin capacity, set size, mask bytes, threads
    (= channels); the two OT checks on channel [t]: first the one with the
    PSI sender as OT receiver. Rr17aMPsiReceiver.cpp:330-641,
    Rr17aMPsiSender.cpp:280-601. *)
Record rr17a := mkRr17a { aStep : N; aBins : N; aCap : N; aN : N; aMask : N; aT : nat; aChk1 : nat -> list (bool * N); aChk2 : nat -> list (bool * N) }.
(** Rr17aMPsiReceiver.cpp:429-464, Rr17aMPsiSender.cpp:421-461. *)
Definition aCorr (P : rr17a) (t : nat) : list N := rrCorr (aStep P) (aCap P) (evenSplit (aBins P) (N.of_nat (aT P)) (N.of_nat t)).
(** Rr17aMPsiSender.cpp:311-315, 575-578, Rr17aMPsiReceiver.cpp:570-587. *)
Definition aMasks (P : rr17a) (t : nat) : list N := rrMasks (aN P * aCap P) (aMask P) (aT P) t.
(** Rr17aMPsiSender.cpp:323-594: [doneFuture] 389-392, corrections 421-456, [permDone] 469, corrections 474-479, checks 558-559, [maskFuture] 562-569, masks 575-579. *)
Definition aSender (P : rr17a) (t : nat) : list ev :=
  Act Inserted :: barrier true barA (aT P) ++ sends (Chan t true) (aCorr P t) ++ [Wai (Barrier true permB) 1] ++ gets (Chan t false) 0 (aCorr P t) ++
  talk true t (length (aCorr P t)) (aChk1 P t) ++ talk true t (length (aCorr P t) + heard true (aChk1 P t)) (aChk2 P t) ++
  Act Checked :: barrier true barB (aT P) ++ Act MasksSent :: sends (Chan t true) (aMasks P t) ++ [done true].
(** Rr17aMPsiSender.cpp:280-305 (permutation thread), 598-601 (joins). *)
Definition permThread : list ev := [Snd (Barrier true permB) 0; done true].
(** Rr17aMPsiSender.cpp:598-601. *)
Definition senderMain (T : nat) : list ev := [Wai (Barrier true joinB) (S T)].
(** Rr17aMPsiReceiver.cpp:330-637: [insertFuture] 404-407, corrections 429-464, 482-485, checks 541-542, [maskFuture] 564-567, masks 582-589; 640-641. *)
Definition aReceiver (P : rr17a) (t : nat) : list ev :=
  barrier false barA (aT P) ++ sends (Chan t false) (aCorr P t) ++ gets (Chan t true) 0 (aCorr P t) ++
  talk false t (length (aCorr P t)) (aChk1 P t) ++ talk false t (length (aCorr P t) + heard false (aChk1 P t)) (aChk2 P t) ++
  Act Inserted :: barrier false barB (aT P) ++ Act LookedUp ::
  gets (Chan t true) (length (aCorr P t) + heard false (aChk1 P t) + heard false (aChk2 P t)) (aMasks P t) ++ [done false].
(** Rr17aMPsiReceiver.cpp:640-641. *)
Definition receiverMain (T : nat) : list ev := [Wai (Barrier false joinB) T].
(** Rr17aMPsiSender.cpp:280-601, Rr17aMPsiReceiver.cpp:330-641: both
    parties. *)
Definition rr17aScripts (P : rr17a) : list (list ev) :=
  map (aSender P) (seq 0 (aT P)) ++ map (aReceiver P) (seq 0 (aT P)) ++ [permThread; senderMain (aT P); receiverMain (aT P)].

(** ** RR17b *)

(** Parameters: as above; [bChunk] is 2^14, [bSet] the bytes per item (Rr17bMPsiSender.cpp:242); one OT check. *)
Record rr17b := mkRr17b { bStep : N; bBins : N; bCap : N; bN : N; bChunk : N; bSet : N; bT : nat; bChk : nat -> list (bool * N) }.
(** Rr17bMPsiSender.cpp:251, 279-280, 350-359. *)
Definition bCorrS (P : rr17b) (t : nat) : list N := rrCorr (bStep P) (bCap P) (ceilSplit (bBins P) (N.of_nat (bT P)) (N.of_nat t)).
(** Rr17bMPsiReceiver.cpp:347-348, 360-410. *)
Definition bCorrR (P : rr17b) (t : nat) : list N := rrCorr (bStep P) (bCap P) (evenSplit (bBins P) (N.of_nat (bT P)) (N.of_nat t)).
(** Rr17bMPsiSender.cpp:456-466, Rr17bMPsiReceiver.cpp:429-442. *)
Definition bMasks (P : rr17b) (t : nat) : list N :=
  map (fun p : N * N => p.2 * bSet P) (piecesOf (bChunk P) (ceilSplit (bN P) (N.of_nat (bT P)) (N.of_nat t))).
(** Rr17bMPsiSender.cpp:259-482: barrier 332, [permDone] 344, corrections 350-359, check 445, barrier 453, encodings 462-467; 227-235, 485-488. *)
Definition bSender (P : rr17b) (t : nat) : list ev :=
  Act Inserted :: barrier true barA (bT P) ++ [Wai (Barrier true permB) 1] ++ gets (Chan t false) 0 (bCorrS P t) ++
  talk true t (length (bCorrS P t)) (bChk P t) ++ Act Checked :: barrier true barB (bT P) ++ Act MasksSent :: sends (Chan t true) (bMasks P t) ++ [done true].
(** Rr17bMPsiReceiver.cpp:279-523: barrier 342, tags and corrections 360-410, check 417, encodings 435-442 with lookups 465. *)
Definition bReceiver (P : rr17b) (t : nat) : list ev :=
  barrier false barA (bT P) ++ Act Inserted :: sends (Chan t false) (bCorrR P t) ++ talk false t 0 (bChk P t) ++
  concat (imap (fun i k => [Get (Chan t true) (heard false (bChk P t) + i) k; Act LookedUp]) (bMasks P t)) ++ [done false].
(** Rr17bMPsiSender.cpp:193-490, Rr17bMPsiReceiver.cpp:226-534: both
    parties. *)
Definition rr17bScripts (P : rr17b) : list (list ev) :=
  map (bSender P) (seq 0 (bT P)) ++ map (bReceiver P) (seq 0 (bT P)) ++ [permThread; senderMain (bT P); receiverMain (bT P)].

(** ** GRR18 *)

(** Parameters: as above; announced loads of sender and receiver for all bins; total number of mask rows; messages of the OT check: finalizations, challenges and proofs, by the OT receiver role of
    the PSI sender ([gFin], [gProof] with [true]) and of the PSI receiver,
    challenges by the OT sender roles. Grr18MPsiReceiver.cpp:207-682,
    Grr18MPsiSender.cpp:199-606. *)
Record grr18 := mkGrr18 { gStep : N; gBins : N; gN : N; gMask : N; gT : nat; gLoadsS : list N; gLoadsR : list N; gRows : N;
  gFin : bool -> nat -> N; gChal : bool -> nat -> N; gProof : bool -> nat -> N }.
(** The total of the loads, Grr18MPsiReceiver.cpp:356, 359. *)
Definition sumN (l : list N) : N := foldr N.add 0 l.
(** Grr18MPsiReceiver.cpp:279-280, Grr18MPsiSender.cpp:266-267. *)
Definition gRange (P : grr18) (t : nat) : N * N := evenSplit (gBins P) (N.of_nat (gT P)) (N.of_nat t).
(** Grr18MPsiSender.cpp:349-390, 406-419, Grr18MPsiReceiver.cpp:374-415, 431-440: one correction message per step, with as many corrections as the loads of its bins. *)
Definition gCorr (P : grr18) (loads : list N) (t : nat) : list N :=
  map (fun p : N * N => sumN (take (N.to_nat p.2) (drop (N.to_nat p.1) loads))) (piecesOf (gStep P) (gRange P t)).
(** Total load (8 bytes) and loads: Grr18MPsiSender.cpp:330-331, Grr18MPsiReceiver.cpp:359-360. *)
Definition gHead (P : grr18) (t : nat) : list N := [8; (gRange P t).2 - (gRange P t).1].
(** Grr18MPsiSender.cpp:550-584, Grr18MPsiReceiver.cpp:574-599. *)
Definition gMasks (P : grr18) (t : nat) : list N :=
  map (fun p : N * N => p.2 * gMask P) (piecesOf (2 ^ N.log2_up (gN P)) (evenSplit (gRows P) (N.of_nat (gT P)) (N.of_nat t))).
(** Grr18MPsiSender.cpp:252-596: receives posted 272-273; [doneFuture] 317-320, loads 330-331, corrections 349-390, waits 393, 396, correction receives posted 406-419, [numMaskFuture]
    424-439, number of masks 445, corrections 469, check 527-536, [maskFuture] 542-545, masks 560-580, proof 590-591. *)
Definition gSender (P : grr18) (t : nat) : list ev :=
  let corrR := gCorr P (gLoadsR P) t in
  Act Inserted :: barrier true barA (gT P) ++ sends (Chan t true) (gHead P t) ++ sends (Chan t true) (gCorr P (gLoadsS P) t) ++ gets (Chan t false) 0 (gHead P t) ++
  barrier true barC (gT P) ++ Snd (Chan t true) 8 :: gets (Chan t false) 2 corrR ++
  Snd (Chan t true) (gFin P true t) :: Get (Chan t false) (2 + length corrR) (gFin P false t) ::
  Snd (Chan t true) (gChal P true t) :: Get (Chan t false) (3 + length corrR) (gChal P false t) ::
  Get (Chan t false) (4 + length corrR) (gProof P false t) :: Act Checked :: barrier true barB (gT P) ++
  Act MasksSent :: sends (Chan t true) (gMasks P t) ++ [Snd (Chan t true) (gProof P true t); done true].
(** Grr18MPsiReceiver.cpp:265-670: receives posted 287-288; [insertFuture] 340-343, wait 351, loads 359-360, corrections 374-415, wait 425, correction receives posted 431-440, waits 457, receive of
    the number of masks posted 519, check 523-530, insertion of the last masks 535-539, [maskFuture] 552-555, wait 557, masks 586-612, proof 667. *)
Definition gReceiver (P : grr18) (t : nat) : list ev :=
  let corrS := gCorr P (gLoadsS P) t in
  barrier false barA (gT P) ++ Get (Chan t true) 1 ((gRange P t).2 - (gRange P t).1) :: sends (Chan t false) (gHead P t) ++ sends (Chan t false) (gCorr P (gLoadsR P) t) ++
  Get (Chan t true) 0 8 :: gets (Chan t true) 2 corrS ++
  Snd (Chan t false) (gFin P false t) :: Get (Chan t true) (3 + length corrS) (gFin P true t) ::
  Snd (Chan t false) (gChal P false t) :: Get (Chan t true) (4 + length corrS) (gChal P true t) ::
  Snd (Chan t false) (gProof P false t) :: Act Inserted :: barrier false barB (gT P) ++ Get (Chan t true) (2 + length corrS) 8 ::
  Act LookedUp :: gets (Chan t true) (5 + length corrS) (gMasks P t) ++
  [Get (Chan t true) (5 + length corrS + length (gMasks P t)) (gProof P true t); done false].
(** Grr18MPsiSender.cpp:199-606, Grr18MPsiReceiver.cpp:207-682: both
    parties. *)
Definition grr18Scripts (P : grr18) : list (list ev) :=
  map (gSender P) (seq 0 (gT P)) ++ map (gReceiver P) (seq 0 (gT P)) ++ [[Wai (Barrier true joinB) (gT P)]; receiverMain (gT P)].

(** ** RR16 *)

(** Parameters: set sizes and filter bits, threads; [cFirst]: the receiver's thread that arrives first at AknBfMPsiReceiver.cpp:337 and merges the masks (any thread, the order depends on the schedule). *)
Record rr16 := mkRr16 { cN : N; cBf : N; cT : nat; cFirst : nat }.
(** AknBfMPsiReceiver.cpp:371-372, AknBfMPsiSender.cpp:185. *)
Definition cMasks (P : rr16) (t : nat) : N := let r := evenSplit (cN P) (N.of_nat (cT P)) (N.of_nat t) in r.2 - r.1.
(** Barriers of RR16: [spawnB] start of the sender's threads, [barA] hashing
    done (receiver), validity (sender), [permB] permutation done, [barB]
    masks handed to the merging thread, [barC] merge done.
    AknBfMPsiSender.cpp:195-200. *)
Definition spawnB : nat := 5.
(** AknBfMPsiSender.cpp:114 (receive of the permutation), 195-208 (threads), 210-222 (check; here of a permutation that is accepted), 224-225. *)
Definition cSenderMain (P : rr16) : list ev :=
  [Get (Chan 0 false) 0 (cBf P); Snd (Barrier true spawnB) 0; Act Checked; Snd (Barrier true barA) 0; Wai (Barrier true joinB) (cT P)].
(** AknBfMPsiSender.cpp:123-192. *)
Definition cSender (P : rr16) (t : nat) : list ev :=
  [Wai (Barrier true spawnB) 1; Wai (Barrier true barA) 1; Act MasksSent; Snd (Chan t true) (cMasks P t); done true].
(** AknBfMPsiReceiver.cpp:137-402: filter bits set ([Hashed]) by 201, [hashingsDone] 204-207, permutation 210-262, merge 336-369 ([Inserted]: the masks of the thread are in the table,
    or in the promise from which the merging thread takes them), masks 372, lookups 381-390. The receive takes a vector of any size. *)
Definition cReceiver (P : rr16) (t : nat) : list ev :=
  Act Hashed :: barrier false barA (cT P) ++
  (if (t =? 0)%nat then [Snd (Chan 0 false) (cBf P); Snd (Barrier false permB) 0] else [Wai (Barrier false permB) 1]) ++
  (if (t =? cFirst P)%nat then [Wai (Barrier false barB) (cT P - 1); Act Inserted; Snd (Barrier false barC) 0] else [Act Inserted; Snd (Barrier false barB) 0; Wai (Barrier false barC) 1]) ++
  [Get (Chan t true) 0 (cMasks P t); Act LookedUp; done false].
(** AknBfMPsiReceiver.cpp:405-421: thread 0 is the calling thread, which joins the others. *)
Definition rr16Scripts (P : rr16) : list (list ev) :=
  map (cSender P) (seq 0 (cT P)) ++ map (cReceiver P) (seq 0 (cT P)) ++ [cSenderMain P; receiverMain (cT P)].
