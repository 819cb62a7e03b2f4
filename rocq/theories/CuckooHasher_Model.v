(** Model of the cuckoo hash table of libPSI/Tools/CuckooHasher.{h,cpp} (class [CuckooHasher]),
    which is keyed by rows of 64-bit hash values, and of its variant
    frontend/cuckoo/SimpleCuckoo.{h,cpp} (class [SimpleCuckoo]).

    Simplifications that hold for the whole file: [double mBinScaler] is replaced by the number
    of bins it yields (.cpp:154); the printing functions, [mPrint] and [mTotalTries] are left
    out; the [#ifndef NDEBUG] checks are left out (release build); the per-thread scratch arrays
    of [struct Workspace] (.h:51-67) are replaced by their length, since every function
    writes the entries that it reads. One thread at a time. *)
From Verif Require Import Base.

(** CuckooHasher.h:78 and :94-98, the data members. [hNum] is [mParams.mNumHashes], which
    is also the row width of [mHashesView] (.cpp:152). *)
Record Hasher := mkHasher {
  hNum : N;
  hRows : list N;              (* mHashes *)
  hBins : list N;              (* mBins *)
  hStash : list N }.           (* mStash *)

(** [u64(-1)], the empty bin, CuckooHasher.h:33. *)
Definition minus1 : N := 2 ^ 64 - 1.
(** CuckooHasher.h:34 and .cpp:211, 308, 596: [idx | (hashIdx << 56)] on 64-bit words. *)
Definition binVal (idx hashIdx : N) : N := N.lor idx (N.shiftl hashIdx 56 mod two64).
(** CuckooHasher.cpp:579-582. *)
Definition binEmpty (w : N) : bool := w =? minus1.
(** CuckooHasher.cpp:584-587. *)
Definition binIdx (w : N) : N := N.land w (N.shiftr minus1 8).
(** CuckooHasher.cpp:589-592. *)
Definition binHash (w : N) : N := N.shiftr w 56.

(** [mHashesView[idx][j]], or [(mHashesView.data() + idx * width)[j]] (.cpp:203): the offset is
    computed modulo 2^64. *)
Definition cell (c : Hasher) (idx j : N) : option N :=
  readN (hRows c) ((idx * hNum c) mod two64 + j).

(** CuckooHasher.cpp:113-160, [init] after the choice of [mParams]: [num], [bins] and [stash] are
    [mNumHashes], [u64(mBinScaler * mN)] and [mStashSize] of the choice. [resize] keeps old
    contents, as [std::vector::resize] does. *)
Definition initWith (n num bins stash : N) (c : Hasher) : Hasher :=
  mkHasher num
    (resize (N.to_nat (n * num)) minus1 (hRows c))
    (resize (N.to_nat bins) minus1 (hBins c))
    (resize (N.to_nat stash) minus1 (hStash c)).

(** CuckooHasher.cpp:120-147, the choice of the parameters: [log2 of the limit] of the entry of
    the parameter table that is used; [None] = "not implemented" is thrown. *)
Definition paramClass (n statSec : N) : option N :=
  if negb (statSec =? 40) then None
  else if n <=? 2 ^ 7 then Some 7
  else if n <=? 2 ^ 8 then Some 8
  else if n <=? 2 ^ 12 then Some 12
  else if n <=? 2 ^ 16 then Some 16
  else if n <=? 2 ^ 20 then Some 20
  else if n <=? 2 ^ 24 then Some 24
  else if n <=? 2 ^ 28 then Some 28
  else if n <=? 2 ^ 30 then Some 30
  else if n <=? 2 ^ 32 then Some 32
  else None.

(** One entry of the parameter table. The entries ([k2n07s40CuckooParam], ...) are defined in
    cryptoTools, outside /repo. Chosen at CuckooHasher.cpp:124-147. *)
Record HParams := mkHParams { qStash : N; qBins : N; qNum : N }.

(** CuckooHasher.cpp:113-160, [init]. *)
Definition init (table : N -> HParams) (n statSec : N) (c : Hasher) : outcome Hasher :=
  match paramClass n statSec with
  | None => Thrown c
  | Some k => let p := table k in Done (initWith n (qNum p) (qBins p) (qStash p) c)
  end.

(** A default-constructed object, CuckooHasher.cpp:34-36 and .h:33. *)
Definition constructed : Hasher := mkHasher 0 [] [] [].

(** Copy [n] words from position [src] of [from] to position [dst] of [to]: the [memcpy] of
    .cpp:168 and the loop .cpp:190-204. *)
Fixpoint copyRow (n : nat) (from : list N) (src : N) (to : list N) (dst : N) : option (list N) :=
  match n with
  | O => Some to
  | S n' =>
      match readN from src with
      | None => None
      | Some x =>
          match writeN to dst x with
          | None => None
          | Some to' => copyRow n' from (src + 1) to' (dst + 1)
          end
      end
  end.

(** The stash loops .cpp:336-340 and 277-290 for one item in hand: [Bin::swap] (.cpp:594-612)
    with slot after slot until a slot was empty. Second component: the item in hand when the
    slots are used up, [None] if it was put away. *)
Fixpoint stashShift (st : list N) (idx hashIdx : N) : list N * option (N * N) :=
  match st with
  | [] => ([], Some (idx, hashIdx))
  | w :: st' =>
      if binEmpty w then (binVal idx hashIdx :: st', None)
      else let '(st2, hand) := stashShift st' (binIdx w) (binHash w) in
           (binVal idx hashIdx :: st2, hand)
  end.

(** CuckooHasher.cpp:295-346, [insertHelper]; [left] is [100 - numTries]. The stash loop has no
    bounds check: running past the end is [UB]. *)
Fixpoint insertHelper (left : nat) (c : Hasher) (idx hashIdx : N) : outcome Hasher :=
  match cell c idx hashIdx with
  | None => UB
  | Some x =>
      if N.of_nat (length (hBins c)) =? 0 then UB
      else
        let addr := x mod N.of_nat (length (hBins c)) in
        match readN (hBins c) addr with
        | None => UB
        | Some old =>
            let c' := mkHasher (hNum c) (hRows c)
                        (<[N.to_nat addr := binVal idx hashIdx]> (hBins c)) (hStash c) in
            if binEmpty old then Done c'
            else match left with
                 | O =>
                     match stashShift (hStash c') (binIdx old) (binHash old) with
                     | (st', None) => Done (mkHasher (hNum c') (hRows c') (hBins c') st')
                     | (_, Some _) => UB
                     end
                 | S left' =>
                     if hNum c =? 0 then UB
                     else insertHelper left' c' (binIdx old) ((binHash old + 1) mod hNum c)
                 end
        end
  end.

(** CuckooHasher.cpp:162-171, [insert]. *)
Definition insert (c : Hasher) (idx : N) (hashs : list N) : outcome Hasher :=
  match cell c idx 0 with
  | None => UB
  | Some x =>
      if negb (x =? minus1) then Thrown c
      else match copyRow (N.to_nat (hNum c)) hashs 0 (hRows c) ((idx * hNum c) mod two64) with
           | None => UB
           | Some rows' =>
               insertHelper 100 (mkHasher (hNum c) rows' (hBins c) (hStash c)) idx 0
           end
  end.

(** CuckooHasher.cpp:188-206: store the hash rows of the batch; [i] is the loop counter. *)
Fixpoint setRows (num : N) (idxs : list N) (hashs : list N) (i : N) (rows : list N)
    : option (list N) :=
  match idxs with
  | [] => Some rows
  | idx :: idxs' =>
      match copyRow (N.to_nat num) hashs ((i * num) mod two64) rows ((idx * num) mod two64) with
      | None => None
      | Some rows' => setRows num idxs' hashs (i + 1) rows'
      end
  end.

(** CuckooHasher.cpp:214-218: the bins of the items in hand. *)
Fixpoint fetchAddrs (c : Hasher) (items : list (N * N)) : option (list N) :=
  match items with
  | [] => Some []
  | (idx, h) :: items' =>
      match cell c idx h with
      | None => None
      | Some x =>
          if N.of_nat (length (hBins c)) =? 0 then None
          else match fetchAddrs c items' with
               | None => None
               | Some l => Some (x mod N.of_nat (length (hBins c)) :: l)
               end
      end
  end.

(** CuckooHasher.cpp:221-230: put the items in hand in their bins, one after the other;
    returns the bins and what was in them ([w.oldVals]). *)
Fixpoint swapAll (bins : list N) (items : list (N * N)) (addrs : list N)
    : option (list N * list N) :=
  match items, addrs with
  | (idx, h) :: items', a :: addrs' =>
      match readN bins a with
      | None => None
      | Some old =>
          match swapAll (<[N.to_nat a := binVal idx h]> bins) items' addrs' with
          | None => None
          | Some (bins', olds) => Some (bins', old :: olds)
          end
      end
  | _, _ => Some (bins, [])
  end.

(** The arrays [inputIdxs], [w.curHashIdxs] and [w.oldVals].
    CuckooHasher.cpp:174-176, CuckooHasher.h:51-67. *)
Record Lanes := mkLanes { lIdx : list N; lHash : list N; lOld : list N }.

(** CuckooHasher.cpp:245-246 and 264-265: lane [put] takes over what lane [get] evicted. *)
Definition takeOver (num : N) (l : Lanes) (put get : nat) : Lanes :=
  let w := default 0 (lOld l !! get) in
  mkLanes (<[put := binIdx w]> (lIdx l)) (<[put := (1 + binHash w) mod num]> (lHash l)) (lOld l).

(** [w.oldVals[i] != u64(-1)]. CuckooHasher.cpp:241, 258. *)
Definition evicted (l : Lanes) (i : nat) : bool := negb (binEmpty (default 0 (lOld l !! i))).

(** CuckooHasher.cpp:243-248, the first compaction loop; [k] is [remaining - putIdx]. *)
Fixpoint compactHead (num : N) (k : nat) (l : Lanes) (put : nat) : Lanes * nat :=
  match k with
  | O => (l, put)
  | S k' => if evicted l put then compactHead num k' (takeOver num l put put) (S put)
            else (l, put)
  end.

(** CuckooHasher.cpp:267-268, [std::swap(w.oldVals[putIdx], w.oldVals[getIdx])]. *)
Definition swapOld (l : Lanes) (put get : nat) : Lanes :=
  mkLanes (lIdx l) (lHash l)
    (<[get := default 0 (lOld l !! put)]> (<[put := default 0 (lOld l !! get)]> (lOld l))).

(** CuckooHasher.cpp:256-272, the second compaction loop; [k] is [remaining - getIdx]. *)
Fixpoint compactTail (num : N) (k : nat) (l : Lanes) (put get : nat) : Lanes * nat :=
  match k with
  | O => (l, put)
  | S k' =>
      if evicted l get
      then compactTail num k' (swapOld (takeOver num l put get) put get) (S put) (S get)
      else compactTail num k' l put (S get)
  end.

(** CuckooHasher.cpp:240-274: returns the lanes and the new [remaining]. *)
Definition compact (num : N) (remaining : nat) (l : Lanes) : Lanes * nat :=
  let '(l1, put) := compactHead num remaining l 0 in
  compactTail num (remaining - (put + 1)) l1 put (put + 1).

(** CuckooHasher.cpp:209-275, the insertion loop; [tries] is [100 - tryCount]. Returns the
    table, [inputIdxs], [w.curHashIdxs] and [remaining]. *)
Fixpoint batchLoop (tries : nat) (c : Hasher) (idxs his : list N) (remaining : nat)
    : option (Hasher * list N * list N * nat) :=
  match remaining, tries with
  | O, _ | _, O => Some (c, idxs, his, remaining)
  | S _, S tries' =>
      let items := take remaining (zip idxs his) in
      match fetchAddrs c items with
      | None => None
      | Some addrs =>
          match swapAll (hBins c) items addrs with
          | None => None
          | Some (bins', olds) =>
              if hNum c =? 0 then None
              else
                let '(l, remaining') := compact (hNum c) remaining (mkLanes idxs his olds) in
                batchLoop tries' (mkHasher (hNum c) (hRows c) bins' (hStash c))
                  (lIdx l) (lHash l) remaining'
          end
      end
  end.

(** CuckooHasher.cpp:277-290: put the first [remaining] items in the stash; [j] walks over [st]
    and never goes back. Returns the new stash, [inputIdxs] and whether the stash overflowed. *)
Fixpoint batchStash (st : list N) (idxs his : list N) (i remaining : nat)
    : list N * list N * bool :=
  match (remaining - i)%nat with
  | O => (st, idxs, false)
  | S _ =>
      match st with
      | [] => ([], idxs, true)
      | w :: st' =>
          let new := binVal (default 0 (idxs !! i)) (default 0 (his !! i)) in
          let idxs' := <[i := if binEmpty w then minus1 else binIdx w]> idxs in
          let his' := <[i := if binEmpty w then minus1 else binHash w]> his in
          let i' := if binEmpty w then S i else i in
          let '(st2, out, over) := batchStash st' idxs' his' i' remaining in
          (new :: st2, out, over)
      end
  end.

(** CuckooHasher.cpp:173-291, [insertBatch]: [hashs] is the row-major hash matrix, [ws] the
    size of the workspace. The result also has the final content of the caller's [inputIdxs]. *)
Definition insertBatch (c : Hasher) (ws : nat) (idxs : list N) (hashs : list N)
    : outcome (Hasher * list N) :=
  if (ws <? length idxs)%nat then UB
  else
    match setRows (hNum c) idxs hashs 0 (hRows c) with
    | None => UB
    | Some rows' =>
        match batchLoop 100 (mkHasher (hNum c) rows' (hBins c) (hStash c)) idxs
                (replicate (length idxs) 0) (length idxs) with
        | None => UB
        | Some (c', idxs', his', remaining) =>
            let '(st', out, over) := batchStash (hStash c') idxs' his' 0 remaining in
            let c2 := mkHasher (hNum c') (hRows c') (hBins c') st' in
            if over then Thrown (c2, out) else Done (c2, out)
        end
    end.

(** The comparison of a stored row with the query, .cpp:371-375 and 382-386 (two hash
    functions; [&&] evaluates from the left). [None]: out of bounds. *)
Definition match2 (c : Hasher) (idx q0 q1 : N) : option bool :=
  match cell c idx 0 with
  | None => None
  | Some x => if x =? q0 then
                match cell c idx 1 with
                | None => None
                | Some y => Some (y =? q1)
                end
              else Some false
  end.

(** The comparison with any number of hash functions, .cpp:436-440 and 465-469; [j] is the loop
    counter, [q] the rest of the query row. *)
Fixpoint matchRow (c : Hasher) (idx j : N) (q : list N) : option bool :=
  match q with
  | [] => Some true
  | x :: q' =>
      match cell c idx j with
      | None => None
      | Some y => match matchRow c idx (j + 1) q' with
                  | None => None
                  | Some b => Some ((y =? x) && b)
                  end
      end
  end.

(** Look at one table word, .cpp:366-378 (and :380-389, 400-414, 430-446, 458-476): the item
    index if the word is used and its row matches. [test] is the comparison. *)
Definition probeWord (test : N -> option bool) (w : N) : option (option N) :=
  if binEmpty w then Some None
  else match test (binIdx w) with
       | None => None
       | Some true => Some (Some (binIdx w))
       | Some false => Some None
       end.

(** The stash search .cpp:394-417 and 450-479: stops at the first empty slot. *)
Fixpoint findStash (test : N -> option bool) (st : list N) : outcome N :=
  match st with
  | [] => Done minus1
  | w :: st' =>
      if binEmpty w then Done minus1
      else match probeWord test w with
           | None => UB
           | Some (Some i) => Done i
           | Some None => findStash test st'
           end
  end.

(** [mBins[h % mBins.size()].mVal]. For example CuckooHasher.cpp:354-365. *)
Definition binAt (c : Hasher) (h : N) : option N :=
  if N.of_nat (length (hBins c)) =? 0 then None
  else readN (hBins c) (h mod N.of_nat (length (hBins c))).

(** The loop over the hash functions, .cpp:422-447. *)
Fixpoint findBins (c : Hasher) (test : N -> option bool) (hs : list N) : outcome N :=
  match hs with
  | [] => findStash test (hStash c)
  | h :: hs' =>
      match binAt c h with
      | None => UB
      | Some w =>
          match probeWord test w with
          | None => UB
          | Some (Some i) => Done i
          | Some None => findBins c test hs'
          end
      end
  end.

(** CuckooHasher.cpp:350-482, [find]. *)
Definition find (c : Hasher) (hashes : list N) : outcome N :=
  if hNum c =? 2 then
    match readN hashes 0, readN hashes 1 with
    | Some q0, Some q1 =>
        match binAt c q0, binAt c q1 with
        | Some v0, Some v1 =>
            match probeWord (fun i => match2 c i q0 q1) v0 with
            | None => UB
            | Some (Some i) => Done i
            | Some None =>
                match probeWord (fun i => match2 c i q0 q1) v1 with
                | None => UB
                | Some (Some i) => Done i
                | Some None => findStash (fun i => match2 c i q0 q1) (hStash c)
                end
            end
        | _, _ => UB
        end
    | _, _ => UB
    end
  else if (length hashes <? N.to_nat (hNum c))%nat then UB
  else let q := take (N.to_nat (hNum c)) hashes in findBins c (fun i => matchRow c i 0 q) q.

(** CuckooHasher.cpp:498-534, the bins part of [findBatch] for one row: a match in the second
    bin overwrites a match in the first one. *)
Definition batchBins (c : Hasher) (q : N * N) : option N :=
  match binAt c q.1, binAt c q.2 with
  | Some v0, Some v1 =>
      match probeWord (fun i => match2 c i q.1 q.2) v0,
            probeWord (fun i => match2 c i q.1 q.2) v1 with
      | Some r0, Some r1 => Some (default (default minus1 r0) r1)
      | _, _ => None
      end
  | _, _ => None
  end.

(** One stash entry against all rows, .cpp:550-562. *)
Fixpoint stashRow (c : Hasher) (w : N) (qs : list (N * N)) (out : list N) : option (list N) :=
  match qs, out with
  | q :: qs', o :: out' =>
      match probeWord (fun i => match2 c i q.1 q.2) w with
      | None => None
      | Some r =>
          match stashRow c w qs' out' with
          | None => None
          | Some l => Some (default o r :: l)
          end
      end
  | _, _ => Some out
  end.

(** CuckooHasher.cpp:538-566, the stash part of [findBatch]. *)
Fixpoint batchFindStash (c : Hasher) (st : list N) (qs : list (N * N)) (out : list N)
    : option (list N) :=
  match st with
  | [] => Some out
  | w :: st' =>
      if binEmpty w then Some out
      else match stashRow c w qs out with
           | None => None
           | Some out' => batchFindStash c st' qs out'
           end
  end.

(** The bins part for all rows, .cpp:498-534. The first pass over all rows (loads of the bins)
    and the second one (comparisons) are merged: nothing is written in between. *)
Fixpoint batchAllBins (c : Hasher) (qs : list (N * N)) : option (list N) :=
  match qs with
  | [] => Some []
  | q :: qs' =>
      match batchBins c q, batchAllBins c qs' with
      | Some r, Some l => Some (r :: l)
      | _, _ => None
      end
  end.

(** CuckooHasher.cpp:487-575, [findBatch]: [qs] are the rows of the matrix [hashes], [ws] is the size of
    the workspace, [cap] the size of the output span; the result is the part of the output span that is written. *)
Definition findBatch (c : Hasher) (ws cap : nat) (qs : list (N * N)) : outcome (list N) :=
  if hNum c =? 2 then
    if (ws <? length qs)%nat || (cap <? length qs)%nat then UB
    else match batchAllBins c qs with
         | None => UB
         | Some out =>
             match batchFindStash c (hStash c) qs out with
             | None => UB
             | Some out' => Done out'
             end
         end
  else Thrown [].

(** CuckooHasher.cpp:42-69, [operator==]; [None]: the sizes differ and the function throws. *)
Definition tableEq (c d : Hasher) : option bool :=
  if negb (length (hBins c) =? length (hBins d))%nat then None
  else if negb (length (hStash c) =? length (hStash d))%nat then None
  else Some (forallb (fun x => x.1 =? x.2) (zip (hBins c) (hBins d)) &&
             forallb (fun x => x.1 =? x.2) (zip (hStash c) (hStash d))).

(** ** [SimpleCuckoo] *)

(** SimpleCuckoo.cpp:99-111, [init]; the stash is left alone. *)
Definition simpleInit (n num bins : N) (c : Hasher) : Hasher :=
  mkHasher num (resize (N.to_nat (n * num)) 0 (hRows c))
    (resize (N.to_nat bins) minus1 (hBins c)) (hStash c).

(** SimpleCuckoo.cpp:114-255, [insertBatch]: as in [CuckooHasher] (the swap of [oldVals]
    is commented out there; it has no effect on the rest), but the stash grows. *)
Definition simpleInsertBatch (c : Hasher) (ws : nat) (idxs : list N) (hashs : list N)
    : outcome Hasher :=
  if (ws <? length idxs)%nat then UB
  else
    match setRows (hNum c) idxs hashs 0 (hRows c) with
    | None => UB
    | Some rows' =>
        match batchLoop 100 (mkHasher (hNum c) rows' (hBins c) (hStash c)) idxs
                (replicate (length idxs) 0) (length idxs) with
        | None => UB
        | Some (c', idxs', his', remaining) =>
            Done (mkHasher (hNum c') (hRows c') (hBins c')
                    (hStash c' ++ map (fun x => binVal x.1 x.2) (take remaining (zip idxs' his'))))
        end
    end.

(** SimpleCuckoo.cpp:310-336 and 391-417: the stash search of [SimpleCuckoo::findBatch] for one row
    goes on after a match, so the last match counts. *)
Fixpoint simpleFindStash (test : N -> option bool) (st : list N) (res : N) : outcome N :=
  match st with
  | [] => Done res
  | w :: st' =>
      if binEmpty w then Done res
      else match probeWord test w with
           | None => UB
           | Some r => simpleFindStash test st' (default res r)
           end
  end.

(** SimpleCuckoo.cpp:371-388: the bins of one row (any number of hash functions but two); the loop
    stops at the first match. *)
Fixpoint simpleFindBins (c : Hasher) (test : N -> option bool) (hs : list N) : outcome N :=
  match hs with
  | [] => Done minus1
  | h :: hs' =>
      match binAt c h with
      | None => UB
      | Some w =>
          match probeWord test w with
          | None => UB
          | Some (Some i) => Done i
          | Some None => simpleFindBins c test hs'
          end
      end
  end.

(** SimpleCuckoo.cpp:259-423, [findBatch] for one row of the matrix. *)
Definition simpleFindOne (c : Hasher) (q : list N) : outcome N :=
  let bins :=
    if hNum c =? 2 then
      match readN q 0, readN q 1 with
      | Some q0, Some q1 => match batchBins c (q0, q1) with None => UB | Some r => Done r end
      | _, _ => UB
      end
    else simpleFindBins c (fun i => matchRow c i 0 q) q in
  match bins with
  | Done r =>
      if r =? minus1 then
        simpleFindStash
          (if hNum c =? 2 then fun i => match2 c i (default 0 (readN q 0)) (default 0 (readN q 1))
           else fun i => matchRow c i 0 q) (hStash c) minus1
      else Done r
  | o => o
  end.

(** SimpleCuckoo.cpp:259-423, [findBatch] for all rows. *)
Fixpoint simpleFindBatch (c : Hasher) (qs : list (list N)) : outcome (list N) :=
  match qs with
  | [] => Done []
  | q :: qs' =>
      match simpleFindOne c q, simpleFindBatch c qs' with
      | Done r, Done l => Done (r :: l)
      | _, _ => UB
      end
  end.

(** SimpleCuckoo.cpp:425-435, [stashUtilization]. *)
Fixpoint stashUtilization (st : list N) : N :=
  match st with
  | [] => 0
  | w :: st' => if binEmpty w then 0 else 1 + stashUtilization st'
  end.
