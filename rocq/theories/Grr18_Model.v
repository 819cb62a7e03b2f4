(** Model of the GRR18 protocol, libPSI/MPSI/Grr18: [computeLoads] (Grr18Common.cpp) and [sendInput] of Grr18MPsiReceiver.cpp and
    Grr18MPsiSender.cpp.

    Simplifications for the whole file.
    - OTs, AES, mask size, messages and barriers as in Rr17a_Model.v, whose definitions for the common parts of the code are used.
    - Noise: the samples of the floating-point distributions are arbitrary integers.
    - The lookup table picked by [computeLoads] is an arbitrary table. *)
From Verif Require Import Base Partition_Model Rr17_Model Rr17a_Model.

(** ** Noisy loads *)

(** What selects the mode: [lapPlusBuffer], [cwThreshold], [oneSided]; [get_bin_size(mBinCount, n, 40)]; [bins.mMaxBinSize]; the table
    ([mStart], [mLookups]) of the last mode. The arguments
    Grr18Common.cpp:45-55, the bin sizes :62, 88, 110, the table :15-27. *)
Record loadCfg := mkLoadCfg { cLap : bool; cCw : Z; cOneSided : bool; cMax : N; cBinCap : N; cStart : Z; cTable : list N }.

(** Grr18Common.cpp:266-276: the table is cut at the first entry, not counting entry 0, above [maxBinLoad]. *)
Fixpoint cutTail (maxLoad : N) (l : list N) : list N :=
  match l with [] => [] | v :: l' => if maxLoad <? v then [] else v :: cutTail maxLoad l' end.
(** Grr18Common.cpp:266-276. *)
Definition cutTable (maxLoad : N) (l : list N) : list N := match l with [] => [] | v :: l' => v :: cutTail maxLoad l' end.
(** [Lookup::operator[]], Grr18Common.cpp:29-41. *)
Definition lookupAt (start : Z) (tab : list N) (idx : Z) : option N :=
  (tab !! Z.to_nat (Z.min (Z.of_nat (length tab) - 1) (Z.max 0 (idx - start)))).

(** The load of one bin of size [size]. [noise]: what the sample (and the constants added to it) contribute to the sum after its conversion to
    an integer. [UB]: conversion of a value the integer type does not have;
    an empty table. Thrown: no value. Grr18Common.cpp:60-85, 86-97, 101-119,
    308-323. *)
Definition binLoad (c : loadCfg) (noise : Z) (size : N) : outcome N :=
  let v := (Z.of_N size + noise)%Z in
  if cLap c then
    (* 60-85 *)
    if (v <? 0)%Z || (2 ^ 64 <=? v)%Z then UB
    else let l := N.min (cMax c) (Z.to_N v) mod 256 in
         if l <? size then Thrown l else Done l
  else if negb (cCw c =? -1)%Z then
    (* 86-100: the comparison is one of unsigned numbers *)
    let cw := Z.to_N (cCw c mod 2 ^ 64) in
    Done ((if cw <? size then cMax c else cw) mod 256)
  else if cOneSided c then
    (* 101-126 *)
    if (v <? 0)%Z || (2 ^ 64 <=? v)%Z then UB
    else let ss := N.min (Z.to_N v) (cBinCap c) in
         if 255 <? ss then Thrown ss else Done ss
  else
    (* 127-321 *)
    if 255 <? size then Thrown size
    else if (v <? - 2 ^ 31)%Z || (2 ^ 31 <=? v)%Z then UB
    else let tab := cutTable (cMax c) (cTable c) in
         let estimate := Z.max (Z.min (cStart c + Z.of_nat (length tab)) v) (cStart c) in
         match lookupAt (cStart c) tab estimate with
         | Some l => Done (N.max (l mod 256) size)
         | None => UB
         end.

(** The loop over the bins and the total, Grr18Common.cpp:57, 82, 96, 115, 323, 350. State: loads so far, total. *)
Definition loadStep (c : loadCfg) (noise : nat -> Z) (sizes : list N) (i : nat) (s : list N * N) : outcome (list N * N) :=
  match (sizes !! i : option N) with
  | None => UB
  | Some size => match binLoad c (noise i) size with
                 | Done l => Done (s.1 ++ [l], (s.2 + l) mod two64)
                 | Thrown _ => Thrown s
                 | UB => UB
                 | OutOfFuel => OutOfFuel
                 end
  end.
(** All bins, Grr18Common.cpp:45-351. *)
Definition computeLoads (c : loadCfg) (noise : nat -> Z) (sizes : list N) : outcome (list N * N) :=
  foldl (fun o i => andThen o (loadStep c noise sizes i)) (Done ([], 0)) (seq 0 (length sizes)).

(** ** The run *)

(** Random choices and schedules: the slot permutations of receiver and sender (bin), the order of bin insertions at receiver and sender, the
    order in which the batches of the receiver's threads reach the shared map, the order in which the sender's threads take
    mask rows, the number of padding rows after conversion to an integer, their contents (the memory is not initialised), the order in which
    the receiver's threads append results. Grr18MPsiReceiver.cpp:207-682,
    Grr18MPsiSender.cpp:199-606. *)
Record grrRand := mkGrrRand { gShufR : nat -> list nat; gShufS : nat -> list nat; gOrdR : list nat; gOrdS : list nat;
  gIns : list (list (N * (nat * N))) -> list (list (N * (nat * N))); gThr : list nat; gSurplus : Z; gPad : nat -> N; gOut : list nat }.

(** The load of bin [b], Grr18MPsiReceiver.cpp:385. *)
Definition ld (loads : list nat) (b : nat) : nat := default 0%nat (loads !! b).
(** Receiver:352-357: the receiver's loads. *)
Definition recvLoads (own theirs : list nat) : list nat := zip_with Nat.max own theirs.

(** The bins of thread [t] with the first OT index of each: [otIdx] grows by the load of the bin (Receiver:382-417 and 455-514, Sender:348-392 and
    463-519). *)
Fixpoint withBase (loads : list nat) (t base : nat) (bs : list nat) : list (nat * nat * nat) :=
  match bs with [] => [] | b :: bs' => (t, b, base) :: withBase loads t (base + ld loads b) bs' end.
(** Grr18MPsiReceiver.cpp:382-417, 455-514, Grr18MPsiSender.cpp:348-392,
    463-519. *)
Definition placesL (loads : list nat) (nb T t : nat) : list (nat * nat * nat) := withBase loads t 0 (idxRange nb T t).

(** Receiver:464-510: entries of the items of a thread's bins, one block per item. *)
Definition grrBlocks (P : params) (theirs : list nat) (inp masks : list N) (bins : list (list nat)) (t : nat) : list (list (N * (nat * N))) :=
  concat (map (fun pl : nat * nat * nat => let '(t, b, base) := pl in
    map (fun i => imap (fun l m => (m mod 2 ^ keyBits P, ((i * pCap P + l)%nat, m))) (itemMasks (pEncS P) (ld theirs b) inp masks t base i))
      (default [] (bins !! b))) (placesL theirs (pNb P) (pT P) t)).
(** Receiver:445-447, 473-484, 534-538: the insert buffer is handed over when the next item does not fit, and at the end. Simplification: that
    an item alone fits ([binLoad <= 255], room for at least 4096) is not checked. *)
Fixpoint flushes {A} (size : N) (cur : list A) (blocks : list (list A)) : list (list A) :=
  match blocks with
  | [] => [cur]
  | b :: bs => if size <? N.of_nat (length cur) + N.of_nat (length b) then cur :: flushes size b bs else flushes size (cur ++ b) bs
  end.

(** Sender:463-519: the mask rows of a thread. *)
Definition grrRows (P : params) (theirs : list nat) (inp masks : list N) (bins : list (list nat)) (t : nat) : list N :=
  concat (map (fun pl : nat * nat * nat => let '(t, b, base) := pl in
    concat (map (fun i => map (fun m => m mod 2 ^ (8 * pMask P)) (itemMasks (pEncR P) (ld theirs b) inp masks t base i)) (default [] (bins !! b))))
    (placesL theirs (pNb P) (pT P) t)).

(** [ownR]: loads the receiver computed, [loadsS]: loads the sender announced, for all bins. Outcomes other than [Done]:
    wrong input sizes and too long masks are thrown (Receiver:213-222, Sender:201-207); [UB]: a bin or row overflows, a load exceeds the row of the receiver's
    [masks] (Receiver:506), the empty key 0 is inserted in the map (Receiver:257), mask size 0 (Sender:443), negative number of padding rows
    (Sender:436: conversion of a negative number, buffer smaller than the masks written). *)
Definition grrRun (P : params) (rd : grrRand) (ownR loadsS : list nat) (R S old : list N) : outcome result :=
  let n := pN P in
  let loadsR := recvLoads ownR loadsS in
  if negb (length R =? n)%nat || negb (length S =? n)%nat then Thrown (mkResult old R S)
  else if 16 <? pMask P then Thrown (mkResult old R S)
  else if (pMask P =? 0) then UB
  else match mkBins P R (gOrdR rd), mkBins P S (gOrdS rd) with
  | Some binsR, Some binsS =>
      match mapM (fun t => sendAssign (gShufR rd) binsR (placesL loadsR (pNb P) (pT P) t)) (seq 0 (pT P)),
            mapM (fun t => sendAssign (gShufS rd) binsS (placesL loadsS (pNb P) (pT P) t)) (seq 0 (pT P)) with
      | Some asR, Some asS =>
          let inpR := map (nco P) R in
          let inpS := map (nco P) S in
          let masksR := threadMasks (pEncR P) inpR asR (replicate n 0) in
          let masksS := threadMasks (pEncS P) inpS asS (replicate n 0) in
          let batches := concat (map (fun t => flushes (N.of_nat (pCap P) * 4096) [] (grrBlocks P loadsS inpR masksR binsR t)) (seq 0 (pT P))) in
          let entries := concat (gIns rd batches) in
          if existsb (fun l => pCap P <? l)%nat loadsS then UB
          else if existsb (fun e : N * (nat * N) => e.1 =? 0) entries then UB
          else if (gSurplus rd <? 0)%Z then UB
          else
            let rows := concat (map (grrRows P loadsR inpS masksS binsS) (gThr rd)) ++ map (gPad rd) (seq 0 (Z.to_nat (gSurplus rd))) in
            let channel t := omap (fun k => rows !! k) (idxRange (length rows) (pT P) t) in
            let tab := recvTable entries in
            Done (mkResult (old ++ concat (map (fun t => omap (findMask P tab) (channel t)) (gOut rd))) (inputsAfter P R) (inputsAfter P S))
      | _, _ => UB
      end
  | _, _ => UB
  end.
