(** Model of the cuckoo index, libPSI/Tools/CuckooIndex2.{h,cpp} (namespace
    [osuCrypto::old], class [CuckooIndex<Mode>]).

    Simplifications that hold for the whole file: [double mBinScaler] is replaced
    by the number of bins it yields (CuckooIndex2.h:20); diagnostics printed
    to [std::cout] and the counter [mTotalTries] (never written after the
    constructor) are left out; the [#ifndef NDEBUG] checks are left out (release
    build). A [block] is a number below 2^128. *)
From Verif Require Import Base.

(** CuckooIndex2.h:14-22, [struct CuckooParam]. [pNumBins] stands for
    [numBins()], i.e. [u64(mN * mBinScaler)]. *)
Record CuckooParam := mkParam {
  pStashSize : nat;
  pNumBins : N;
  pNumHashes : N;
  pN : nat }.

(** CuckooIndex2.h:71-180, the data members of [CuckooIndex]. Bins and stash
    are the packed 64-bit words of [struct Bin]. *)
Record Cuckoo := mkCuckoo {
  cParams : CuckooParam;
  cLimit : nat;                (* mReinsertLimit, h:71 *)
  cHashes : list N;            (* mHashes, h:168 *)
  cBins : list N;              (* mBins, h:170 *)
  cStash : list N }.           (* mStash, h:171 *)

(** [u64(-1)], the empty word, CuckooIndex2.h:80-82. *)
Definition emptyWord : N := u64max.
(** [u64(-1) >> 8], CuckooIndex2.cpp:304 and 436. *)
Definition nullIdx : N := N.shiftr u64max 8.

(** CuckooIndex2.h:83 and :94, [idx | (hashIdx << 56)] on 64-bit words. *)
Definition packWord (idx hashIdx : N) : N :=
  N.lor idx (N.shiftl hashIdx 56 mod two64).
(** CuckooIndex2.h:87 and :96. *)
Definition wordIdx (w : N) : N := N.land w (N.shiftr u64max 8).
(** CuckooIndex2.h:88 and :97. *)
Definition wordHash (w : N) : N := N.shiftr w 56.
(** CuckooIndex2.h:86. *)
Definition isEmpty (w : N) : bool := w =? emptyWord.

(** CuckooIndex2.h:260-282, static [getHash]: the 64-bit little-endian load at
    byte offset [2*hashIdx] of the block, modulo the number of bins. [None]: a load past the
    16 bytes of the block, or [% 0]. *)
Definition getHash (b hashIdx nb : N) : option N :=
  if (nb =? 0) || (4 <? hashIdx) then None
  else Some ((N.shiftr b (16 * hashIdx) mod two64) mod nb).

(** CuckooIndex2.cpp:473-477, member [getHash]: reads [mHashes[inputIdx]]. *)
Definition getHashOf (hs : list N) (nb inputIdx hashIdx : N) : option N :=
  match readN hs inputIdx with
  | None => None
  | Some b => getHash b hashIdx nb
  end.

(** CuckooIndex2.h:92-98, [Bin::swap] applied to [v[addr]]: stores the item in
    hand, returns the new vector and the item taken out. *)
Definition swapAt (v : list N) (addr idx hashIdx : N) : option (list N * N * N) :=
  match readN v addr with
  | None => None
  | Some old =>
      Some (<[N.to_nat addr := packWord idx hashIdx]> v, wordIdx old, wordHash old)
  end.

(** CuckooIndex2.cpp:455-464 (also :389-398), the search for the first empty stash slot;
    [None] = "cuckoo stash overflow". *)
Fixpoint firstEmpty (st : list N) (k : N) : option N :=
  match st with
  | [] => None
  | w :: st' => if isEmpty w then Some k else firstEmpty st' (k + 1)
  end.

(** CuckooIndex2.cpp:190-201, [init(params)]. [resize] keeps old contents, as
    [std::vector::resize] does: a re-initialised object is not emptied. [AllOneBlock] = 2^128-1. *)
Definition init (p : CuckooParam) (c : Cuckoo) : outcome Cuckoo :=
  if 3 <? pNumHashes p then Thrown c
  else Done (mkCuckoo p (cLimit c)
               (resize (pN p) (2 ^ 128 - 1) (cHashes c))
               (resize (N.to_nat (pNumBins p)) emptyWord (cBins c))
               (resize (pStashSize p) emptyWord (cStash c))).

(** A default-constructed object, CuckooIndex2.h:71 and .cpp:41-45. The members that the
    constructor leaves uninitialised are never read before [init]. The public member
    [mReinsertLimit] (default 200) may be set by the user before inserting. *)
Definition constructed (limit : nat) : Cuckoo := mkCuckoo (mkParam 0 0 0 0) limit [] [] [].

(** Put the item in hand in the first empty stash slot,
    CuckooIndex2.cpp:455-465. [Thrown] leaves the object as it is: the item in hand is
    not stored. *)
Definition toStash (c : Cuckoo) (idx hashIdx : N) : outcome Cuckoo :=
  match firstEmpty (cStash c) 0 with
  | None => Thrown c
  | Some k =>
      match swapAt (cStash c) k idx hashIdx with
      | None => UB
      | Some (st', _, _) =>
          Done (mkCuckoo (cParams c) (cLimit c) (cHashes c) (cBins c) st')
      end
  end.

(** CuckooIndex2.cpp:433-470, [insertOne]. [left] is
    [mReinsertLimit - tryIdx], which is how often the [tryIdx != mReinsertLimit] test can still succeed. *)
Fixpoint insertLoop (left : nat) (c : Cuckoo) (idx hashIdx : N) : outcome Cuckoo :=
  match getHashOf (cHashes c) (pNumBins (cParams c)) idx hashIdx with
  | None => UB
  | Some addr =>
      match swapAt (cBins c) addr idx hashIdx with
      | None => UB
      | Some (bins', idx', hashIdx') =>
          let c' := mkCuckoo (cParams c) (cLimit c) (cHashes c) bins' (cStash c) in
          if idx' =? nullIdx then Done c'
          else match left with
               | O => toStash c' idx' hashIdx'
               | S left' =>
                   if pNumHashes (cParams c) =? 0 then UB
                   else insertLoop left' c' idx' ((1 + hashIdx') mod pNumHashes (cParams c))
               end
      end
  end.

(** CuckooIndex2.cpp:433. A [tryIdx] above the limit would make the C++ loop run until
    the counter wraps; no caller passes one, the model calls it [UB]. *)
Definition insertOne (c : Cuckoo) (idx hashIdx : N) (tryIdx : nat) : outcome Cuckoo :=
  if (cLimit c <? tryIdx)%nat then UB
  else insertLoop (cLimit c - tryIdx) c idx hashIdx.

(** One of the 8 lanes of the batch insert: [inputIdxs[j], curHashIdxs[j],
    tryCounts[j]], CuckooIndex2.cpp:305-306. *)
Notation lane := (N * N * nat)%type.

(** [mHashes[idx] = h], CuckooIndex2.cpp:325, 373, 403, 426. *)
Definition setHash (c : Cuckoo) (idx h : N) : option Cuckoo :=
  match writeN (cHashes c) idx h with
  | None => None
  | Some hs => Some (mkCuckoo (cParams c) (cLimit c) hs (cBins c) (cStash c))
  end.

(** CuckooIndex2.cpp:309-333, filling the lanes with the first (at most 8) items.
    Lanes beyond the batch hold [nullIdx] and are skipped at :416; the model simply has fewer lanes. *)
Fixpoint fillLanes (c : Cuckoo) (items : list (N * N)) : option (Cuckoo * list lane) :=
  match items with
  | [] => Some (c, [])
  | (idx, h) :: rest =>
      match setHash c idx h with
      | None => None
      | Some c' =>
          match fillLanes c' rest with
          | None => None
          | Some (c'', ls) => Some (c'', (idx, 0, O) :: ls)
          end
      end
  end.

(** CuckooIndex2.cpp:345-352, the 8 address computations. *)
Fixpoint laneAddrs (c : Cuckoo) (ls : list lane) : option (list N) :=
  match ls with
  | [] => Some []
  | (idx, hi, _) :: ls' =>
      match getHashOf (cHashes c) (pNumBins (cParams c)) idx hi, laneAddrs c ls' with
      | Some a, Some r => Some (a :: r)
      | _, _ => None
      end
  end.

(** CuckooIndex2.cpp:358-365, the 8 swaps. *)
Fixpoint laneSwaps (bins : list N) (ls : list lane) (addrs : list N) : option (list N * list lane) :=
  match ls, addrs with
  | [], [] => Some (bins, [])
  | (idx, hi, t) :: ls', a :: addrs' =>
      match swapAt bins a idx hi with
      | None => None
      | Some (bins', idx', hi') =>
          match laneSwaps bins' ls' addrs' with
          | None => None
          | Some (bins'', r) => Some (bins'', (idx', hi', t) :: r)
          end
      end
  | _, _ => None
  end.

(** CuckooIndex2.cpp:368-409, what happens to each lane after the swaps. [rest]
    are the items [inputIdxsMaster[i..]] with their hashes; running off its end
    is an out-of-bounds read. The result is the new object, the new lanes
    and the remaining items. On a throw the object is returned. *)
Fixpoint laneUpdate (c : Cuckoo) (ls : list lane) (rest : list (N * N))
  : outcome (Cuckoo * list lane * list (N * N)) :=
  match ls with
  | [] => Done (c, [], rest)
  | (idx, hi, t) :: ls' =>
      if idx =? nullIdx then
        match rest with
        | [] => UB
        | (i, h) :: rest' =>
            match setHash c i h with
            | None => UB
            | Some c' =>
                match laneUpdate c' ls' rest' with
                | Done (c'', r, rest'') => Done (c'', (i, 0, O) :: r, rest'')
                | o => o
                end
            end
        end
      else if (t =? cLimit c)%nat then
        match toStash c idx hi with
        | Done c1 =>
            match rest with
            | [] => UB
            | (i, h) :: rest' =>
                match setHash c1 i h with
                | None => UB
                | Some c' =>
                    match laneUpdate c' ls' rest' with
                    | Done (c'', r, rest'') => Done (c'', (i, 0, O) :: r, rest'')
                    | o => o
                    end
                end
            end
        | Thrown c1 => Thrown (c1, ls, rest)
        | UB => UB
        | OutOfFuel => OutOfFuel
        end
      else
        match laneUpdate c ls' rest with
        | Done (c'', r, rest'') => Done (c'', (idx, (1 + hi) mod 3, S t) :: r, rest'')
        | o => o
        end
  end.

(** CuckooIndex2.cpp:339-410, the [while (i < sizeMaster - 8)] loop: it runs while
    more than 8 items remain. *)
Fixpoint fastLoop (fuel : nat) (c : Cuckoo) (ls : list lane) (rest : list (N * N))
  : outcome (Cuckoo * list lane * list (N * N)) :=
  if (8 <? length rest)%nat then
    match fuel with
    | O => OutOfFuel
    | S fuel' =>
        match laneAddrs c ls with
        | None => UB
        | Some addrs =>
            match laneSwaps (cBins c) ls addrs with
            | None => UB
            | Some (bins', ls') =>
                match laneUpdate (mkCuckoo (cParams c) (cLimit c) (cHashes c) bins' (cStash c)) ls' rest with
                | Done (c', ls'', rest') => fastLoop fuel' c' ls'' rest'
                | o => o
                end
            end
        end
    end
  else Done (c, ls, rest).

(** CuckooIndex2.cpp:413-420, finishing the lanes one by one. *)
Fixpoint finishLanes (c : Cuckoo) (ls : list lane) : outcome Cuckoo :=
  match ls with
  | [] => Done c
  | (idx, hi, t) :: ls' =>
      if idx =? nullIdx then finishLanes c ls'
      else andThen (insertOne c idx hi t) (fun c' => finishLanes c' ls')
  end.

(** CuckooIndex2.cpp:423-429, the remaining items one by one. *)
Fixpoint insertRest (c : Cuckoo) (rest : list (N * N)) : outcome Cuckoo :=
  match rest with
  | [] => Done c
  | (i, h) :: rest' =>
      match setHash c i h with
      | None => UB
      | Some c' => andThen (insertOne c' i 0 O) (fun c'' => insertRest c'' rest')
      end
  end.

(** Number of iterations that always suffices for [fastLoop] (proved in
    CuckooIndex_Proofs): every iteration either advances [i] or uses up a try of
    each lane. For the loop CuckooIndex2.cpp:339. *)
Definition fastFuel (c : Cuckoo) (n : nat) : nat := S ((n + 8) * (cLimit c + 1)).

(** CuckooIndex2.cpp:299-430, [insert(sizeMaster, inputIdxsMaster, hashs)]. The
    batch is the list of (index, hash) pairs. *)
Definition insertBatch (c : Cuckoo) (items : list (N * N)) : outcome Cuckoo :=
  match fillLanes c (take 8 items) with
  | None => UB
  | Some (c1, ls) =>
      let r :=
        if (8 <? length items)%nat && (pNumHashes (cParams c) =? 3)
        then fastLoop (fastFuel c1 (length items)) c1 ls (drop 8 items)
        else Done (c1, ls, drop 8 items) in
      match r with
      | Done (c2, ls2, rest) => andThen (finishLanes c2 ls2) (fun c3 => insertRest c3 rest)
      | Thrown (c2, _, _) => Thrown c2
      | UB => UB
      | OutOfFuel => OutOfFuel
      end
  end.

(** Splitting in chunks of 16, the loop headers CuckooIndex2.cpp:230-232 and :253-256. *)
Fixpoint chunks16 {A} (fuel : nat) (l : list A) : list (list A) :=
  match fuel, l with
  | O, _ => []
  | _, [] => []
  | S f, _ => take 16 l :: chunks16 f (drop 16 l)
  end.

(** A sequence of batch inserts on one object; stops at the first exception.
    The calls in CuckooIndex2.cpp:230-245 and 253-263. *)
Fixpoint insertBatches (c : Cuckoo) (bs : list (list (N * N))) : outcome Cuckoo :=
  match bs with
  | [] => Done c
  | b :: bs' => andThen (insertBatch c b) (fun c' => insertBatches c' bs')
  end.

(** CuckooIndex2.cpp:249-264, [insert(span<block>, startIdx)]: pre-hashed items get
    consecutive indices. (Indices are below 2^56, so the 64-bit addition does not wrap.) *)
Definition insertPrehashed (c : Cuckoo) (hs : list N) (startIdx : N) : outcome Cuckoo :=
  let items := imap (fun i h => (N.of_nat i + startIdx, h)) hs in
  insertBatches c (chunks16 (length items) items).

(** CuckooIndex2.cpp:221-246, [insert(span<block>, hashingSeed, startIdx)]. [enc]
    is AES under the hashing seed; the hash is [enc(x) ^ x] (:234, :239). *)
Definition insertItems (enc : N -> N) (c : Cuckoo) (xs : list N) (startIdx : N) : outcome Cuckoo :=
  insertPrehashed c (map (fun x => N.lxor (enc x) x) xs) startIdx.

(** CuckooIndex2.cpp:287-296, [minCollidingHashIdx]; 255 = [u8(-1)]. *)
Fixpoint minCollidingFrom (target b nb : N) (i : N) (n : nat) : option N :=
  match n with
  | O => Some 255
  | S n' =>
      match getHash b i nb with
      | None => None
      | Some a => if a =? target then Some i else minCollidingFrom target b nb (i + 1) n'
      end
  end.
(** CuckooIndex2.cpp:287-296, from the first hash function. *)
Definition minCollidingHashIdx (target b : N) (numHash : nat) (nb : N) : option N :=
  minCollidingFrom target b nb 0 numHash.

(** Result of [find]: [FindResult], CuckooIndex2.h:142-151. [None] = [{~0,~0}]. *)
Definition findResult : Type := option (N * N).

(** One table word against the query, CuckooIndex2.cpp:497-504, 546-558, 564-577:
    [Some true] = the word is not empty and the stored hash equals the query. *)
Definition wordMatches (hs : list N) (w q : N) : option bool :=
  if isEmpty w then Some false
  else match readN hs (wordIdx w) with
       | None => None
       | Some h => Some (h =? q)
       end.

(** Stash scan, CuckooIndex2.cpp:516-534 and 561-579. *)
Fixpoint findStash (hs st : list N) (q pos : N) : option findResult :=
  match st with
  | [] => Some None
  | w :: st' =>
      if isEmpty w then Some None
      else match wordMatches hs w q with
           | None => None
           | Some true => Some (Some (wordIdx w, pos))
           | Some false => findStash hs st' q (pos + 1)
           end
  end.

(** General hash loop, CuckooIndex2.cpp:540-559 ([addr] is reduced once more by
    the number of bins, :543). *)
Fixpoint findHashes (c : Cuckoo) (q i : N) (n : nat) : option findResult :=
  match n with
  | O => findStash (cHashes c) (cStash c) q (N.of_nat (length (cBins c)))
  | S n' =>
      match getHash q i (pNumBins (cParams c)) with
      | None => None
      | Some a0 =>
          if (length (cBins c) =? 0)%nat then None
          else
            let a := a0 mod N.of_nat (length (cBins c)) in
            match readN (cBins c) a with
            | None => None
            | Some w =>
                match wordMatches (cHashes c) w q with
                | None => None
                | Some true => Some (Some (wordIdx w, a))
                | Some false => findHashes c q (i + 1) n'
                end
            end
      end
  end.

(** CuckooIndex2.cpp:483-583, [find(hash)]. Outer [None] = undefined behaviour. *)
Definition find (c : Cuckoo) (q : N) : option findResult :=
  if pNumHashes (cParams c) =? 2 then
    match getHash q 0 (pNumBins (cParams c)), getHash q 1 (pNumBins (cParams c)) with
    | Some a0, Some a1 =>
        match readN (cBins c) a0, readN (cBins c) a1 with
        | Some w0, Some w1 =>
            match wordMatches (cHashes c) w0 q with
            | None => None
            | Some true => Some (Some (wordIdx w0, a0))
            | Some false =>
                match wordMatches (cHashes c) w1 q with
                | None => None
                | Some true => Some (Some (wordIdx w1, a1))
                | Some false =>
                    findStash (cHashes c) (cStash c) q (N.of_nat (length (cBins c)))
                end
            end
        | _, _ => None
        end
    | _, _ => None
    end
  else findHashes c q 0 (N.to_nat (pNumHashes (cParams c))).

(** CuckooIndex2.cpp:731-740, [stashUtilization]. *)
Fixpoint stashUtilization (st : list N) : nat :=
  match st with
  | [] => O
  | w :: st' => if isEmpty w then O else S (stashUtilization st')
  end.

(** Local [idxs] update for one query of the batch lookup (two hash functions):
    CuckooIndex2.cpp:624-650, first bins only. [None] = undefined behaviour. *)
Definition findBatchBins (c : Cuckoo) (q : N) : option N :=
  match getHash q 0 (pNumBins (cParams c)), getHash q 1 (pNumBins (cParams c)) with
  | Some a0, Some a1 =>
      match readN (cBins c) a0, readN (cBins c) a1 with
      | Some w0, Some w1 =>
          match wordMatches (cHashes c) w0 q, wordMatches (cHashes c) w1 q with
          | Some m0, Some m1 =>
              let r0 := if m0 then wordIdx w0 else u64max in
              Some (if m1 then wordIdx w1 else r0)
          | _, _ => None
          end
      | _, _ => None
      end
  | _, _ => None
  end.

(** CuckooIndex2.cpp:655-671: for stash slot [i], every lane [j] is overwritten
    if the stash entry equals [hashes[i]] (sic: [i], not [j]). [qs] are the
    remaining queries from this step on; reading [hashes[i]] beyond them is out of bounds. *)
Fixpoint findBatchStash (c : Cuckoo) (st : list N) (i : N) (qs : list N) (idxs : list N) : option (list N) :=
  match st with
  | [] => Some idxs
  | w :: st' =>
      if isEmpty w then Some idxs
      else match idxs with
           | [] => findBatchStash c st' (i + 1) qs idxs   (* numItems = 0: inner loop empty *)
           | _ =>
               match readN qs i with
               | None => None
               | Some q =>
                   match wordMatches (cHashes c) w q with
                   | None => None
                   | Some m =>
                       findBatchStash c st' (i + 1) qs
                         (if m then map (fun _ => wordIdx w) idxs else idxs)
                   end
               end
           end
  end.

(** CuckooIndex2.cpp:603-679, [find(numItemsMaster, hashesMaster, idxsMaster)]. [out] is the
    caller's array [idxsMaster] (declared [const u64*]), returned as it is after
    the call; each step copies 8 of its entries into the local array (:615) and
    computes the local results, which are then dropped. *)
Fixpoint findBatchSteps (fuel : nat) (c : Cuckoo) (qs out outRest : list N) : outcome (list N) :=
  match fuel with
  | O => OutOfFuel
  | S fuel' =>
      match qs with
      | [] => Done out
      | _ =>
          if (length outRest <? 8)%nat then UB         (* :615 reads 8 entries *)
          else if pNumHashes (cParams c) =? 2 then
            match mapM (findBatchBins c) (take 8 qs) with
            | None => UB
            | Some idxs =>
                match findBatchStash c (cStash c) 0 qs idxs with
                | None => UB
                | Some _ => findBatchSteps fuel' c (drop 8 qs) out (drop 8 outRest)
                end
            end
          else Thrown out
      end
  end.
(** CuckooIndex2.cpp:603-679: all steps. *)
Definition findBatch (c : Cuckoo) (qs out : list N) : outcome (list N) :=
  findBatchSteps (S (length qs)) c qs out out.
