(** Model of the KKRT PSI, libPSI/PSI/Kkrt/KkrtPsiReceiver.cpp and KkrtPsiSender.cpp.

    Simplifications for the whole file.
    - The OPRF (libOTe's [NcoOtExt]) is an arbitrary function [F bin item]; both parties'
      [encode] write the low [ms] bytes of its value. The sender's [encode] for a bin is defined
      only once the correction of this bin has been received.
    - [enc] is AES under the common hashing seed ([mHashingSeed], Sender:85, Receiver:103).
    - The mask size [ms] (Sender:348, Receiver:125; the same floating point expression)
      is an argument; masks are numbers below [256^ms].
    - Timers and log output are left out. One channel ([chls[0]], Sender:347, Receiver:122). *)
From Verif Require Import Base CuckooIndex_Model.

(** ** Sender's permutation *)

(** KkrtPsiSender.cpp:101-106. [rnd i] is the i-th [mPrng.get<u64>()]. [None] = out of bounds. *)
Fixpoint permLoop (n : nat) (rnd : nat -> N) (k i : nat) (pm iv : list nat) : option (list nat * list nat) :=
  match k with
  | O => Some (pm, iv)
  | S k' =>
      let j := (N.to_nat (rnd i mod N.of_nat (n - i)) + i)%nat in
      match pm !! i, pm !! j with
      | Some a, Some b =>
          let pm' := <[j := a]> (<[i := b]> pm) in
          match pm' !! i with
          | Some c =>
              if (c <? length iv)%nat then permLoop n rnd k' (S i) pm' (<[c := i]> iv) else None
          | None => None
          end
      | _, _ => None
      end
  end.

(** KkrtPsiSender.cpp:94-106: [mPermute], [mPermuteInv]. Throws above 2^32-1 items. *)
Definition drawPermutation (n : nat) (rnd : nat -> N) : outcome (option (list nat * list nat)) :=
  if 2 ^ 32 - 1 <? N.of_nat n then Thrown None
  else match permLoop n rnd n 0 (seq 0 n) (replicate n O) with
       | Some r => Done (Some r)
       | None => UB
       end.

(** ** Hashing the sender's items *)

(** Word stored for a candidate bin that repeats an earlier one, [u64(-1)].
    KkrtPsiSender.cpp:214-221, 255-262, 291, 319, 485. *)
Definition noBin : N := u64max.

(** [bIdx | (c * u64(-1))], e.g. KkrtPsiSender.cpp:214. *)
Definition markBin (b : N) (c : bool) : N := N.lor b (if c then u64max else 0).

(** One item of the 8-wide loop, KkrtPsiSender.cpp:173-271 (the eight unrolled lanes are
    the same computation on eight items). Result: three table entries and the collision bits. *)
Definition hashRow8 (x : N) (enc : N -> N) (nb : N) : option (list (N * bool)) :=
  let h := N.lxor (enc x) x in
  match getHash h 0 nb, getHash h 1 nb, getHash h 2 nb with
  | Some b0, Some b1, Some b2 =>
      let c1 := b0 =? b1 in
      let c2 := (b0 =? b2) || (b1 =? b2) in
      Some [(b0, false); (markBin b1 c1, c1); (markBin b2 c2, c2)]
  | _, _, _ => None
  end.

(** One item of the remainder loop, KkrtPsiSender.cpp:278-293; [prev] = [bIdxs[0..h-1]]. *)
Fixpoint hashRowRem (h : N) (k : nat) (i nb : N) (prev : list N) : option (list (N * bool)) :=
  match k with
  | O => Some []
  | S k' =>
      match getHash h i nb with
      | None => None
      | Some b =>
          let c := existsb (fun p => p =? b) prev in
          match hashRowRem h k' (i + 1) nb (prev ++ [b]) with
          | None => None
          | Some r => Some ((markBin b c, c) :: r)
          end
      end
  end.

(** KkrtPsiSender.cpp:139-140, 150, 276: the first [8 * (n / 8)] items go through the
    8-wide loop, the others through the remainder loop. (The branch for a hash count other than three,
    :296-325, is not reached: [init] throws, :55.) *)
Definition hashRows (enc : N -> N) (nb : N) (xs : list N) : option (list (list (N * bool))) :=
  let m := (8 * (length xs / 8))%nat in
  match mapM (fun x => hashRow8 x enc nb) (take m xs),
        mapM (fun x => hashRowRem (N.lxor (enc x) x) 3 0 nb []) (drop m xs) with
  | Some r1, Some r2 => Some (r1 ++ r2)
  | _, _ => None
  end.

(** The junk written for collisions, KkrtPsiSender.cpp:224-231, 264-271, 292: mask
    [perm[itemIdx] * 3 + h] receives random bytes [junk item h] if the collision bit is set. *)
Fixpoint junkRow (junk : nat -> N) (row : list (N * bool)) (pos h : nat) (masks : list N) : option (list N) :=
  match row with
  | [] => Some masks
  | (_, c) :: row' =>
      if c then
        if (pos + h <? length masks)%nat then junkRow junk row' pos (S h) (<[(pos + h)%nat := junk h]> masks)
        else None
      else junkRow junk row' pos (S h) masks
  end.
(** KkrtPsiSender.cpp:224-231, 264-271, 292: all rows. *)
Fixpoint junkRows (junk : nat -> nat -> N) (inv : list nat) (rows : list (list (N * bool))) (item : nat)
    (masks : list N) : option (list N) :=
  match rows with
  | [] => Some masks
  | row :: rows' =>
      match inv !! item with
      | None => None
      | Some p =>
          match junkRow (junk item) row (p * 3) 0 masks with
          | None => None
          | Some masks' => junkRows junk inv rows' (S item) masks'
          end
      end
  end.

(** The matrices [binIdxs] (flat, three entries per item) and [myMaskBuff]
    (one number per row). KkrtPsiSender.cpp:125-326, 359. *)
Record sendBufs := mkBufs { sbBins : list N; sbMasks : list N }.

(** KkrtPsiSender.cpp:359, 399-400; [Matrix] is zero-initialised. *)
Definition hashItems (enc : N -> N) (junk : nat -> nat -> N) (ms nb : N) (inv : list nat) (xs : list N)
  : option sendBufs :=
  match hashRows enc nb xs with
  | None => None
  | Some rows =>
      match junkRows (fun i h => junk i h mod 256 ^ ms) inv rows 0 (replicate (3 * length xs) 0) with
      | None => None
      | Some masks => Some (mkBufs (concat (map (map fst) rows)) masks)
      end
  end.

(** ** Sender's encoding loops and the thread receiving the corrections *)

(** KkrtPsiSender.cpp:364, KkrtPsiReceiver.cpp:148. *)
Definition stepSize : nat := 1024.   (* Sender:364, Receiver:148 *)

(** Shared state: [gArrived] bins have their correction (written by [recvCorrection]),
    [gRecved] is the atomic [recvedIdx]. KkrtPsiSender.cpp:366-389. *)
Record arrivals := mkArrivals { gArrived : N; gRecved : N }.

(** One turn of the background thread, KkrtPsiSender.cpp:374-389: either [recvCorrection]
    or [fetch_add]. *)
Definition receiverTurn (nb : N) (g : arrivals) : arrivals :=
  if gRecved g <? nb then
    if gArrived g =? gRecved g
    then mkArrivals (gRecved g + N.min 1024 (nb - gRecved g)) (gRecved g)
    else mkArrivals (gArrived g) (gArrived g)
  else g.

(** [mOtSender->encode(bIdx, ...)], low [ms] bytes. [None]: the correction
    of the bin has not arrived. KkrtPsiSender.cpp:438, 487. *)
Definition encodeS (F : N -> N -> N) (ms arrived b x : N) : option N :=
  if b <? arrived then Some (F b x mod 256 ^ ms) else None.

(** KkrtPsiSender.cpp:427-443: the three hash functions of the item at permuted position [i]. *)
Fixpoint tryEncode (F : N -> N -> N) (ms arrived r x : N) (i idx h k : nat) (s : sendBufs) : option sendBufs :=
  match k with
  | O => Some s
  | S k' =>
      match sbBins s !! (idx * 3 + h)%nat with
      | None => None
      | Some b =>
          if b <? r then
            match encodeS F ms arrived b x with
            | None => None
            | Some e =>
                if (i * 3 + h <? length (sbMasks s))%nat then
                  tryEncode F ms arrived r x i idx (S h) k'
                    (mkBufs (<[(idx * 3 + h)%nat := noBin]> (sbBins s)) (<[(i * 3 + h)%nat := e]> (sbMasks s)))
                else None
            end
          else tryEncode F ms arrived r x i idx (S h) k' s
      end
  end.

(** KkrtPsiSender.cpp:476-490, the same item in the last pass. *)
Fixpoint finalEncode (F : N -> N -> N) (ms arrived x : N) (i idx h k : nat) (s : sendBufs) : option sendBufs :=
  match k with
  | O => Some s
  | S k' =>
      match sbBins s !! (idx * 3 + h)%nat with
      | None => None
      | Some b =>
          if b =? noBin then finalEncode F ms arrived x i idx (S h) k' s
          else
            match encodeS F ms arrived b x with
            | None => None
            | Some e =>
                if (i * 3 + h <? length (sbMasks s))%nat then
                  finalEncode F ms arrived x i idx (S h) k'
                    (mkBufs (sbBins s) (<[(i * 3 + h)%nat := e]> (sbMasks s)))
                else None
            end
      end
  end.

(** The inner loop of the last pass over positions [i .. i+k-1], KkrtPsiSender.cpp:473-491. *)
Fixpoint finalChunk (F : N -> N -> N) (ms arrived : N) (xs : list N) (pm : list nat) (i k : nat) (s : sendBufs)
  : option sendBufs :=
  match k with
  | O => Some s
  | S k' =>
      match pm !! i with
      | None => None
      | Some idx =>
          match xs !! idx with
          | None => None
          | Some x =>
              match finalEncode F ms arrived x i idx 0 3 s with
              | None => None
              | Some s' => finalChunk F ms arrived xs pm (S i) k' s'
              end
          end
      end
  end.

(** The last pass, KkrtPsiSender.cpp:468-497: encode a chunk, send it. Result: the messages.
    [fuel] bounds the number of chunks. *)
Fixpoint finalPass (F : N -> N -> N) (ms arrived : N) (xs : list N) (pm : list nat) (fuel i : nat) (s : sendBufs)
  : option (list (list N)) :=
  if (i <? length xs)%nat then
    match fuel with
    | O => None
    | S fuel' =>
        let cur := Nat.min stepSize (length xs - i) in
        match finalChunk F ms arrived xs pm i cur s with
        | None => None
        | Some s' =>
            match finalPass F ms arrived xs pm fuel' (i + cur) s' with
            | None => None
            | Some msgs => Some (take (cur * 3) (drop (i * 3) (sbMasks s')) :: msgs)
            end
        end
    end
  else Some [].

(** The encoding thread: in the first loop (Sender:417-452; [eJ] is [j], [eI] is [i], [eR] is [r]) or finished,
    having sent the messages. *)
Inductive encoder :=
| Looping (j i : nat) (r : N) (s : sendBufs)
| Sent (msgs : list (list N)).

(** Leaving or continuing [while (r != numBins)], Sender:417. All corrections have arrived when it is left, so
    the last pass is one turn. *)
Definition loopTest (F : N -> N -> N) (ms nb : N) (xs : list N) (pm : list nat) (g : arrivals) (i : nat) (r : N)
    (s : sendBufs) : option encoder :=
  if r =? nb then
    match finalPass F ms (gArrived g) xs pm (length xs) 0 s with
    | None => None
    | Some msgs => Some (Sent msgs)
    end
  else Some (Looping 0 i r s).

(** One turn of the encoding thread: one iteration of the loop over [j] (Sender:420-447), or the load of
    [recvedIdx] (Sender:451) with the loop test. An item's three encodings are one turn: between them only the local [r]
    is read. [None] = undefined behaviour. *)
Definition encoderTurn (F : N -> N -> N) (ms nb : N) (xs : list N) (pm : list nat) (g : arrivals) (e : encoder)
  : option encoder :=
  match e with
  | Sent msgs => Some e
  | Looping j i r s =>
      if (j <? stepSize)%nat then
        match pm !! i with
        | None => None
        | Some idx =>
            match xs !! idx with
            | None => None
            | Some x =>
                match tryEncode F ms (gArrived g) r x i idx 0 3 s with
                | None => None
                | Some s' =>
                    if (length xs =? 0)%nat then None
                    else Some (Looping (S j) ((i + 1) mod length xs)%nat r s')
                end
            end
        end
      else loopTest F ms nb xs pm g i (gRecved g) s
  end.

(** A schedule is a list of turns: [true] for the background thread, [false]
    for the encoder. KkrtPsiSender.cpp:374-497. *)
Fixpoint runSender (F : N -> N -> N) (ms nb : N) (xs : list N) (pm : list nat) (sched : list bool) (g : arrivals)
    (e : encoder) : option (arrivals * encoder) :=
  match sched with
  | [] => Some (g, e)
  | true :: sched' => runSender F ms nb xs pm sched' (receiverTurn nb g) e
  | false :: sched' =>
      match encoderTurn F ms nb xs pm g e with
      | None => None
      | Some e' => runSender F ms nb xs pm sched' g e'
      end
  end.

(** KkrtPsiSender.cpp:338-497 under a schedule. *)
Definition senderInput (F enc : N -> N -> N) (seed : N) (junk : nat -> nat -> N) (ms nb : N) (pm iv : list nat)
    (mSenderSize : nat) (xs : list N) (sched : list bool) : outcome (option (arrivals * encoder)) :=
  if negb (length xs =? mSenderSize)%nat then Thrown None
  else match hashItems (enc seed) junk ms nb iv xs with
       | None => UB
       | Some s =>
           match loopTest F ms nb xs pm (mkArrivals 0 0) 0 0 s with
           | None => UB
           | Some e =>
               match runSender F ms nb xs pm sched (mkArrivals 0 0) e with
               | None => UB
               | Some r => Done (Some r)
               end
           end
       end.

(** ** Receiver *)

(** [std::unordered_map<u64, pair<block,u64>>]: [emplace] does not
    overwrite. KkrtPsiReceiver.cpp:133, 179. *)
Definition maskMap : Type := list (N * (N * N)).
(** [find], KkrtPsiReceiver.cpp:227. *)
Fixpoint mapFind (k : N) (m : maskMap) : option (N * N) :=
  match m with
  | [] => None
  | (k', v) :: m' => if k =? k' then Some v else mapFind k m'
  end.
(** [emplace], KkrtPsiReceiver.cpp:179. *)
Definition mapEmplace (k : N) (v : N * N) (m : maskMap) : maskMap :=
  match mapFind k m with
  | Some _ => m
  | None => m ++ [(k, v)]
  end.

(** The receiver object: the cuckoo table and the result vector
    [mIntersection]. KkrtPsiReceiver.h:16-35. *)
Record kReceiver := mkKReceiver { krIndex : Cuckoo; krIntersection : list N }.

(** KkrtPsiReceiver.cpp:48-107 ([init]): only the table is set up; [p] are the selected
    parameters for [max(200, recverSize)] items, stash 0, three hash functions (:55). *)
Definition recvInit (p : CuckooParam) (o : kReceiver) : outcome kReceiver :=
  match init p (krIndex o) with
  | Done c => Done (mkKReceiver c (krIntersection o))
  | Thrown c => Thrown (mkKReceiver c (krIntersection o))
  | UB => UB
  | OutOfFuel => OutOfFuel
  end.

(** KkrtPsiReceiver.cpp:158-186: one bin. [maps] is [localMasks]. *)
Definition binMask (F : N -> N -> N) (ms : N) (c : Cuckoo) (inputs : list N) (bIdx w : N) (maps : list maskMap)
  : option (list maskMap) :=
  if isEmpty w then Some maps
  else
    match readN (cHashes c) (wordIdx w) with
    | None => None
    | Some h =>
        match minCollidingHashIdx bIdx h 3 (N.of_nat (length (cBins c))), readN inputs (wordIdx w) with
        | Some hIdx, Some item =>
            let e := F bIdx item mod 256 ^ ms in
            match readN maps hIdx with
            | None => None
            | Some m => Some (<[N.to_nat hIdx := mapEmplace (e mod two64) (e, wordIdx w) m]> maps)
            end
        | _, _ => None
        end
    end.
(** KkrtPsiReceiver.cpp:158-186: all bins from number [b] on. *)
Fixpoint binMasks (F : N -> N -> N) (ms : N) (c : Cuckoo) (inputs : list N) (b : N) (ws : list N) (maps : list maskMap)
  : option (list maskMap) :=
  match ws with
  | [] => Some maps
  | w :: ws' =>
      match binMask F ms c inputs b w maps with
      | None => None
      | Some maps' => binMasks F ms c inputs (b + 1) ws' maps'
      end
  end.

(** KkrtPsiReceiver.cpp:221-234: one received item (three masks) against the three maps; [idxs[k]] is made of the
    first [min(ms, 8)] bytes (:196). *)
Fixpoint matchItem (ms : N) (maps : list maskMap) (masks : list N) : list N :=
  match maps, masks with
  | m :: maps', e :: masks' =>
      match mapFind (e mod 256 ^ (N.min ms 8)) m with
      | Some (e', idx) => (if e' =? e then [idx] else []) ++ matchItem ms maps' masks'
      | None => matchItem ms maps' masks'
      end
  | _, _ => []
  end.
(** KkrtPsiReceiver.cpp:218-239: [k] received items. *)
Fixpoint matchItems (ms : N) (maps : list maskMap) (masks : list N) (k : nat) : list N :=
  match k with
  | O => []
  | S k' => matchItem ms maps (take 3 masks) ++ matchItems ms maps (drop 3 masks) k'
  end.

(** KkrtPsiReceiver.cpp:205-240. Receiving a message of another size than expected is an error of the
    channel ([Thrown]). [regions] is the number of regions still to come. *)
Fixpoint recvRegions (ms : N) (maps : list maskMap) (senderSize regionIdx : nat) (regions : nat)
    (msgs : list (list N)) (out : list N) : outcome (list N * list (list N)) :=
  match regions with
  | O => Done (out, msgs)
  | S regions' =>
      let start := (regionIdx * stepSize)%nat in
      let cur := Nat.min (senderSize - start) stepSize in
      match msgs with
      | [] => OutOfFuel   (* waits for a message that is never sent *)
      | msg :: msgs' =>
          if (length msg =? cur * 3)%nat
          then recvRegions ms maps senderSize (S regionIdx) regions' msgs' (out ++ matchItems ms maps msg cur)
          else Thrown (out, msgs')
      end
  end.

(** KkrtPsiReceiver.cpp:115-245, given the messages the sender sends. Result: the object and the unread messages.
    [mSenderSize], [mRecverSize] were stored by [init]. *)
Definition receiverInput (F enc : N -> N -> N) (seed ms : N) (mSenderSize mRecverSize : nat) (o : kReceiver)
    (inputs : list N) (msgs : list (list N)) : outcome (kReceiver * list (list N)) :=
  if negb (length inputs =? mRecverSize)%nat then Thrown (o, msgs)
  else match insertItems (enc seed) (krIndex o) inputs 0 with
       | Done c =>
           match binMasks F ms c inputs 0 (cBins c) [[]; []; []] with
           | None => UB
           | Some maps =>
               match recvRegions ms maps mSenderSize 0 ((mSenderSize + stepSize - 1) / stepSize) msgs (krIntersection o) with
               | Done (out, rest) => Done (mkKReceiver c out, rest)
               | Thrown (out, rest) => Thrown (mkKReceiver c out, rest)
               | UB => UB
               | OutOfFuel => OutOfFuel
               end
           end
       | Thrown c => Thrown (mkKReceiver c (krIntersection o), msgs)
       | UB => UB
       | OutOfFuel => OutOfFuel
       end.

(** ** Messages on the channel *)

(** Kind and size of a message: seeds and masks in bytes, corrections in
    number of bins. KkrtPsiSender.cpp:46, 377-388, 468-504,
    KkrtPsiReceiver.cpp:68, 151-211. *)
Inductive message := SeedMsg (bytes : N) | CorrMsg (bins : N) | MaskMsg (bytes : N) | DummyMsg (bytes : N).
(** A send or receive at the lines just cited. *)
Inductive action := Send (m : message) | Recv (m : message).

(** The loop headers of the correction steps: Receiver:151-189 (left) and Sender:377-388 (right). *)
Fixpoint corrStepsR (fuel : nat) (nb stepIdx : N) : list message :=
  match fuel with
  | O => []
  | S f => if stepIdx <? nb then CorrMsg (N.min 1024 (nb - stepIdx)) :: corrStepsR f nb (stepIdx + 1024) else []
  end.
(** KkrtPsiSender.cpp:377-388. *)
Fixpoint corrStepsS (fuel : nat) (nb recved : N) : list message :=
  match fuel with
  | O => []
  | S f => if recved <? nb
           then CorrMsg (N.min 1024 (nb - recved)) :: corrStepsS f nb (recved + N.min 1024 (nb - recved)) else []
  end.
(** Mask messages: Sender:468-497 and Receiver:200-211. *)
Fixpoint maskStepsS (fuel : nat) (ms n i : N) : list message :=
  match fuel with
  | O => []
  | S f => if i <? n
           then MaskMsg (ms * N.min 1024 (n - i) * 3) :: maskStepsS f ms n (i + N.min 1024 (n - i)) else []
  end.
(** KkrtPsiReceiver.cpp:200-211. *)
Definition maskStepsR (ms n : N) : list message :=
  map (fun r => MaskMsg (N.min (n - N.of_nat r * 1024) 1024 * 3 * ms)) (seq 0 (N.to_nat ((n + 1024 - 1) / 1024))).

(** Everything a party does on the channel in [init] (Sender:46, 51; Receiver:68, 70; base OTs assumed
    already set) and [sendInput]. The 1-byte message is Sender:503-504; its counterpart is commented out,
    Receiver:243-244. *)
Definition senderActions (nb ms n : N) : list action :=
  [Send (SeedMsg 16); Recv (SeedMsg 16)] ++ map Recv (corrStepsS (N.to_nat nb) nb 0)
    ++ map Send (maskStepsS (N.to_nat n) ms n 0) ++ [Send (DummyMsg 1)].
(** KkrtPsiReceiver.cpp:68, 70, 151-189, 200-211. *)
Definition receiverActions (nb ms n : N) : list action :=
  [Send (SeedMsg 16); Recv (SeedMsg 16)] ++ map Send (corrStepsR (N.to_nat nb) nb 0)
    ++ map Recv (maskStepsR ms n).
