(** Model of the RR17a protocol, libPSI/MPSI/Rr17/Rr17a/Rr17aMPsiReceiver.cpp and Rr17aMPsiSender.cpp, [sendInput].

    Simplifications for the whole file.
    - The OTs: [encR t i x] is the encoding of [x] in OT [i] of channel [t] where the receiver chooses, [encS t i x] the same for the OTs
      where the sender chooses: arbitrary functions. The chooser's [encode] gives the encoding of its choice, the other
      party's [encode] any encoding. The corrections and checks are left out.
    - [aes] is the keyed AES; both parties hold the same hash seed.
    - The mask size involves a floating-point logarithm and is a parameter.
    - Messages arrive complete and in order. Threads meet at the barriers of the code; between barriers their effects on
      shared data are given by the orders in [rand]. *)
From Verif Require Import Base Partition_Model Rr17_Model.

(** What [init] leaves: hash to a smaller domain?, set size, bin count, bin
    capacity, mask bytes, channels. What [init] sets,
    Rr17aMPsiReceiver.cpp:59-263, Rr17aMPsiSender.cpp:49-231. *)
Record params := mkParams { pHash : bool; pAes : N -> N; pN : nat; pNb : nat; pCap : nat; pMask : N; pT : nat;
  pEncR : nat -> nat -> N -> N; pEncS : nat -> nat -> N -> N }.
(** Random choices and schedules: the receiver's draws (bin, item), the sender's slot permutation per bin, the permutation of the
    sender's masks, the order of bin insertions at receiver and sender, the order in which the sender's threads take mask rows for bins,
    the order in which the receiver's threads append results.
    Rr17aMPsiReceiver.cpp:272-648, Rr17aMPsiSender.cpp:240-603. *)
Record rand := mkRand { rDraw : nat -> nat -> N; rShuf : nat -> list nat; rMaskPerm : list nat; rOrdR : list nat; rOrdS : list nat;
  rPlaces : list (nat * nat * nat); rOut : list nat }.

(** Receiver:346-375, Sender:366-386: the value that is binned. *)
Definition hashed (P : params) (x : N) : N := if pHash P then pAes P x else x.
(** The OT input, Receiver:382: [ncoInputBuff] after the shift. *)
Definition nco (P : params) (x : N) : N := shiftRight (hashed P x) (phase (pN P)).
(** Rr17aMPsiReceiver.cpp:375. *)
Definition itemBin (P : params) (x : N) : nat := binOf (pNb P) (hashed P x).
(** [inputs] afterwards: without hashing, [ncoInputBuff] is the caller's vector (Receiver:321-322, Sender:264-265). *)
Definition inputsAfter (P : params) (l : list N) : list N := if pHash P then l else map (nco P) l.

(** Receiver:366-400, Sender:379-406. *)
Definition mkBins (P : params) (items : list N) (ord : list nat) : option (list (list nat)) :=
  fillBins (pCap P) (map (itemBin P) items) ord (replicate (pNb P) []).

(** Sender:444-469: slot [i] of a bin holds the item at position [permutation[i]], if any. *)
Definition sendSlots (bin shuf : list nat) : list (nat * nat) :=
  omap (fun e : nat * nat => match (bin !! e.2 : option nat) with Some x => Some (x, e.1) | None => None end)
    (zip (seq 0 (length shuf)) shuf).
(** Rr17aMPsiSender.cpp:444-469: all bins. *)
Fixpoint sendAssign (shuf : nat -> list nat) (bins : list (list nat)) (pl : list (nat * nat * nat)) : option (list (nat * nat)) :=
  match pl with
  | [] => Some []
  | (_, b, base) :: pl' =>
      match (bins !! b : option (list nat)), sendAssign shuf bins pl' with
      | Some bin, Some r => Some (map (fun e : nat * nat => (e.1, (base + e.2)%nat)) (sendSlots bin (shuf b)) ++ r)
      | _, _ => None
      end
  end.

(** [recvMasks[inputIdx]]: the encoding of each item in its own OT.
    Rr17aMPsiReceiver.cpp:445-448, Rr17aMPsiSender.cpp:439-442. *)
Definition setMasks (enc : nat -> N -> N) (inp : list N) (assign : list (nat * nat)) (masks : list N) : list N :=
  foldl (fun m e => <[e.1 := enc e.2 (default 0 (inp !! e.1))]> m) masks assign.
(** Rr17aMPsiReceiver.cpp:429-465, Rr17aMPsiSender.cpp:421-461: all bins of
    a thread. *)
Definition threadMasks (enc : nat -> nat -> N -> N) (inp : list N) (assigns : list (list (nat * nat))) (masks : list N) : list N :=
  foldl (fun m e => setMasks (enc e.1) inp e.2 m) masks (zip (seq 0 (length assigns)) assigns).

(** The masks of an item: its encodings in all OTs of its bin where the other party chooses, XOR its own choice's encoding
    (Receiver:494-527, Sender:513-546). *)
Definition itemMasks (enc : nat -> nat -> N -> N) (cap : nat) (inp masks : list N) (t base i : nat) : list N :=
  map (fun l => N.lxor (enc t (base + l)%nat (default 0 (inp !! i))) (default 0 (masks !! i))) (seq 0 cap).

(** ** Receiver's mask table *)

(** Bytes that make up the key, Receiver:479-480. *)
Definition keyBits (P : params) : N := 8 * N.min 8 (pMask P).
(** [maskMap.insert]: an existing key stays. Entries: key, position, mask.
    Rr17aMPsiReceiver.cpp:532, 549. *)
Definition tabInsert (m : list (N * (nat * N))) (e : N * (nat * N)) : list (N * (nat * N)) :=
  if bool_decide (e.1 ∈ m.*1) then m else m ++ [e].
(** Receiver:484-545: what one thread puts in its own [maskMap]. *)
Definition recvEntries (P : params) (inp masks : list N) (bins : list (list nat)) (t : nat) : list (N * (nat * N)) :=
  concat (map (fun pl : nat * nat * nat => let '(t, b, base) := pl in
    concat (map (fun i => imap (fun l m => (m mod 2 ^ keyBits P, ((i * pCap P + l)%nat, m))) (itemMasks (pEncS P) (pCap P) inp masks t base i))
      (default [] (bins !! b)))) (placesOf (pCap P) (pNb P) (pT P) t)).
(** Rr17aMPsiReceiver.cpp:484-545. *)
Definition recvTable (es : list (N * (nat * N))) : list (N * (nat * N)) := foldl tabInsert [] es.

(** Receiver:592-616: look one received mask up. *)
Definition findMask (P : params) (tab : list (N * (nat * N))) (m : N) : option N :=
  match list_find (fun e => e.1 = m mod 2 ^ keyBits P) tab with
  | Some (_, (_, (p, full))) => if full mod 2 ^ (8 * pMask P) =? m then Some (N.of_nat (p / pCap P)) else None
  | None => None
  end.

(** ** Sender's mask buffer *)

(** Sender:488-556: bins take consecutive row numbers in the order [rPlaces]; row [k] goes to place [maskPerm[k]]. Masks are cut to
    [pMask] bytes. *)
Definition sendRows (P : params) (inp masks : list N) (bins : list (list nat)) (pls : list (nat * nat * nat)) : list (list N) :=
  concat (map (fun pl : nat * nat * nat => let '(t, b, base) := pl in
    map (fun i => map (fun m => m mod 2 ^ (8 * pMask P)) (itemMasks (pEncR P) (pCap P) inp masks t base i)) (default [] (bins !! b))) pls).
(** Rr17aMPsiSender.cpp:488-556. *)
Fixpoint placeRows (perm : list nat) (rows : list (list N)) (buf : list (list N)) : option (list (list N)) :=
  match rows with
  | [] => Some buf
  | r :: rows' => match perm with
                  | p :: perm' => if (p <? length buf)%nat then placeRows perm' rows' (<[p := r]> buf) else None
                  | [] => None
                  end
  end.

(** ** Chunks *)

(** Sender:313-314, Receiver:574-575. *)
Definition masksPer (num T : N) : N := N.min (2 ^ 20) ((num + T - 1) / T).
(** Rr17aMPsiSender.cpp:315, Rr17aMPsiReceiver.cpp:572. *)
Definition numChunks (num T : N) : N := (num + (masksPer num T - 1)) / masksPer num T.
(** Rr17aMPsiSender.cpp:575-578: the rows of message [i]. *)
Definition chunk {A} (per : nat) (buf : list A) (i : nat) : list A := take per (drop (i * per) buf).
(** Sender:575-579, Receiver:585-594: channel [t] carries the chunks [t], [t + T], ... *)
Definition channelChunks {A} (per chunks T : nat) (buf : list A) (t : nat) : list A :=
  concat (map (chunk per buf) (filter (fun i => i mod T = t)%nat (seq 0 chunks))).

(** ** Run *)

(** State of the two callers afterwards: the receiver's result, both input
    vectors. [mIntersection], Rr17aMPsiReceiver.cpp:616-630. *)
Record result := mkResult { resOut : list N; resR : list N; resS : list N }.

(** Rr17aMPsiReceiver.cpp:272-648, Rr17aMPsiSender.cpp:240-603. *)
Definition rr17aRun (P : params) (rd : rand) (R S old : list N) : outcome result :=
  let n := pN P in
  if negb (length R =? n)%nat || negb (length S =? n)%nat then Thrown (mkResult old R S)
  else if 16 <? pMask P then Thrown (mkResult old R S)
  else
    let num := (n * pCap P)%nat in
    if (num =? 0)%nat then UB   (* division by [masksPer = 0] *)
    else match mkBins P R (rOrdR rd), mkBins P S (rOrdS rd) with
    | Some binsR, Some binsS =>
        match mapM (fun t => recvAssign (pCap P) (rDraw rd) binsR (placesOf (pCap P) (pNb P) (pT P) t) (seq 0 (pCap P))) (seq 0 (pT P)),
              mapM (fun t => sendAssign (rShuf rd) binsS (placesOf (pCap P) (pNb P) (pT P) t)) (seq 0 (pT P)) with
        | Some asR, Some asS =>
            let inpR := map (nco P) R in
            let inpS := map (nco P) S in
            let masksR := threadMasks (pEncR P) inpR asR (replicate n 0) in
            let masksS := threadMasks (pEncS P) inpS asS (replicate n 0) in
            match placeRows (rMaskPerm rd) (sendRows P inpS masksS binsS (rPlaces rd)) (replicate n (replicate (pCap P) 0)) with
            | Some rows =>
                let buf := concat rows in
                let per := N.to_nat (masksPer (N.of_nat num) (N.of_nat (pT P))) in
                let chunks := N.to_nat (numChunks (N.of_nat num) (N.of_nat (pT P))) in
                let found t := omap (findMask P (recvTable (recvEntries P inpR masksR binsR t))) (channelChunks per chunks (pT P) buf t) in
                Done (mkResult (old ++ concat (map found (rOut rd))) (inputsAfter P R) (inputsAfter P S))
            | None => UB
            end
        | _, _ => UB
        end
    | _, _ => UB
    end.

(** ** Reading the received masks *)

(** Receiver:592-601: the key of mask [i] is read as 8 bytes from offset [i * maskSize] of the chunk buffer ([chunkSize * maskSize]
    bytes). The offsets past the last byte that is read. *)
Definition keyReadEnd (maskSize i : N) : N := i * maskSize + 8.
(** [maskSize], Receiver:287, with [twoLn] the integer part of [2 * log(mN * mMaxBinSize)]. *)
Definition maskSizeOf (statSec twoLn : N) : N := roundUpTo (statSec + twoLn - 1) 8 / 8.
