(** Model of the PIR-PSI protocol, libPSI/PSI/Drrn/DrrnPsiClient.cpp ("Client") and DrrnPsiServer.cpp ("Server").

    Not modelled: the networking (messages arrive unchanged and in order); the final KKRT protocol, replaced by its result
    (Kkrt_Model.v, C21); the cuckoo table of the server, which comes from cryptoTools: it is an arbitrary vector of packed words.
    AES in counter mode, the PRNG and [std::shuffle] are arbitrary functions, lists and permutations. In the functions that return an
    [option], [None] stands for an exception or undefined behaviour. *)
From Verif Require Import Base Partition_Model CuckooIndex_Model Rr17_Model Bgi_Model.

(** A key of the point function with its group words,
    DrrnPsiClient.cpp:134-145. *)
Local Notation key := (list N * list N)%type.

(** ** Parameters *)

(** Members common to client and server: client set size, number of hash functions, number of table slots ([numBins()], [mBins.size()]),
    [mNumSimpleBins] (regions), [mBinSize] (queries per region),
    [mBigBlockSize]. DrrnPsiClient.h:40, 47, DrrnPsiServer.h:57, 64-73. *)
Record dparams := mkDrrn { dN : nat; dH : nat; dSlots : N; dS : nat; dBin : nat; dB : nat }.

(** cryptoTools [divCeil(val, d)]. Used at DrrnPsiServer.cpp:203, 372-373. *)
Definition divCeil (v d : N) : N := (v + d - 1) mod two64 / d.

(** [cuckooSlotsPerBin], Client:50 and Server:340. *)
Definition slotsPerBin (slots regions : N) : N := (slots + regions) mod two64 / regions.
(** [numLeafBlocks], Client:86 and Server:345. *)
Definition leafBlocks (perBin B : N) : N := (perBin + B * 128 - 1) mod two64 / (B * 128).
(** [kDepth] and [groupSize], Client:87-89 and Server:346-348. *)
Definition kDepth (leaves : N) : N := N.max 2 (N.log2 leaves) - 2.
(** DrrnPsiClient.cpp:89, DrrnPsiServer.cpp:348. *)
Definition groupSize (leaves : N) : N := (leaves + 2 ^ kDepth leaves - 1) mod two64 / 2 ^ kDepth leaves.
(** The tree depth and group size, or the exception of Client:90 and Server:349. *)
Definition domainParams (slots regions B : N) : outcome (N * N) :=
  let l := leafBlocks (slotsPerBin slots regions) B in
  if 8 <? groupSize l then Thrown (kDepth l, groupSize l) else Done (kDepth l, groupSize l).

(** ** The client's queries *)

(** Client:66, the region of a slot. *)
Definition regionOf (slots regions slot : N) : N := (slot * regions) mod two64 / slots.
(** Client:132, [binOffset]. *)
Definition binOffset (slots regions b : N) : N := (b * slots + regions - 1) mod two64 / regions.
(** Client:152, 155-156: [bigBlockIdx] and [bigBlockoffset] of a slot in region [b]. *)
Definition queryPosition (slots regions B b slot : N) : N * N :=
  let cuckooIdx := (slot + two64 - binOffset slots regions b) mod two64 in (cuckooIdx / B, cuckooIdx mod B).

(** Slot of item [i] under hash function [j], Client:63-66; [hs]: the hashed items. *)
Definition slotOf (p : dparams) (hs : list N) (i j : nat) : option N :=
  match hs !! i with Some h => getHash h (N.of_nat j) (dSlots p) | None => None end.

(** Client:57-71. Query [q] is hash function [q mod H] of item [q / H] (packed in one word in the code, see C11): the order of insertion.
    [None]: a full row. *)
Definition clientBins (p : dparams) (hs : list N) : option (list (list nat)) :=
  match mapM (fun q => match slotOf p hs (q / dH p) (q mod dH p) with
                       | Some c => Some (N.to_nat (regionOf (dSlots p) (N.of_nat (dS p)) c))
                       | None => None
                       end) (seq 0 (dN p * dH p)) with
  | Some addrs => fillBins (dBin p) addrs (seq 0 (dN p * dH p)) (replicate (dS p) [])
  | None => None
  end.

(** What the client stores for one query: the entry of [pi], the item with
    its masked value (not for dummies), the two keys.
    DrrnPsiClient.cpp:134-180. *)
Record qentry := mkQ { qPi : N; qReal : option (nat * N); qK0 : key; qK1 : key }.

(** Client:139-182, a real query of region [b]. [r]: the masks; [seed q]: the block drawn for the key. *)
Definition realEntry (p : dparams) (aes : bool -> N -> N) (prng : N -> N * N) (seed : nat -> N) (depth gs : nat)
    (r inputs hs : list N) (b : nat) (q : nat) : option qentry :=
  let i := (q / dH p)%nat in
  let j := (q mod dH p)%nat in
  match slotOf p hs i j, (inputs !! i : option N) with
  | Some slot, Some x =>
      let '(blk, off) := queryPosition (dSlots p) (N.of_nat (dS p)) (N.of_nat (dB p)) (N.of_nat b) slot in
      let rIdx := (N.of_nat (i * dH p + j * dB p) + off) mod 2 ^ 32 in
      match keyGen aes prng depth gs blk (seed q), readN r rIdx with
      | Done (k0, g0, k1, g1), Some m => Some (mkQ rIdx (Some (i, N.lxor m x)) (k0, g0) (k1, g1))
      | _, _ => None
      end
  | _, _ => None
  end.
(** Client:184-191, a dummy: the key material stays zero ([k0], [k1] are zero-initialised, Client:134). *)
Definition dummyEntry (depth gs : nat) (d : nat) : qentry :=
  mkQ (N.of_nat d mod 2 ^ 32) None (replicate (S depth) 0, replicate gs 0) (replicate (S depth) 0, replicate gs 0).

(** Client:127-201, the regions in order; [d]: [dummyPermIdx]. *)
Fixpoint layout (p : dparams) (aes : bool -> N -> N) (prng : N -> N * N) (seed : nat -> N) (depth gs : nat) (r inputs hs : list N)
    (b : nat) (bins : list (list nat)) (d : nat) : option (list (list qentry)) :=
  match bins with
  | [] => Some []
  | bin :: bins' =>
      let rem := (dBin p - length bin)%nat in
      match mapM (realEntry p aes prng seed depth gs r inputs hs b) bin,
            layout p aes prng seed depth gs r inputs hs (S b) bins' (d + rem) with
      | Some es, Some rest => Some ((es ++ map (dummyEntry depth gs) (seq d rem)) :: rest)
      | _, _ => None
      end
  end.

(** [permSize], Client:95-96 and Server:39. *)
Definition permSize (p : dparams) : nat := (dS p * dBin p * dB p)%nat.
(** [pi], Client:121, 163, 190: entries that are not written stay zero. *)
Definition piOf (p : dparams) (l : list (list qentry)) : list nat :=
  map N.to_nat (map qPi (concat l)) ++ replicate (permSize p - dS p * dBin p) 0%nat.

(** The lists of masks, Client:109-111 and Server:71-73: block [k] of AES in counter mode under the common seed. *)
Definition maskList (mask : N -> N) (P : nat) (which : nat) : list N := map (fun i => mask (N.of_nat (which * P + i))) (seq 0 P).

(** Client:203-217, [pi1Inv]. *)
Fixpoint invert (i : nat) (pi1 : list nat) (acc : list nat) : list nat :=
  match pi1 with [] => acc | x :: l => invert (S i) l (<[x := i]> acc) end.
(** Client:218-229, [pi0] and [piS0]. *)
Definition clientPerm (pi pi1 : list nat) (piS1 s : list N) : option (list nat * list N) :=
  let inv := invert 0 pi1 (replicate (length pi1) 0%nat) in
  match mapM (fun x => inv !! x) pi, mapM (fun e : nat * N => match s !! e.1 with Some v => Some (N.lxor e.2 v) | None => None end) (zip pi piS1) with
  | Some pi0, Some piS0 => Some (pi0, piS0)
  | _, _ => None
  end.

(** ** The server's masks *)

(** [std::swap(l[a], l[b])]. DrrnPsiServer.cpp:81. *)
Definition swapPos (l : list N) (a b : nat) : option (list N) :=
  match l !! a, l !! b with Some x, Some y => Some (<[b := x]> (<[a := y]> l)) | _, _ => None end.
(** Server:79-82, [j] from 1 up. *)
Fixpoint sigmaLoop (off : nat) (j : nat) (sigma : list nat) (r : list N) : option (list N) :=
  match sigma with
  | [] => Some r
  | x :: l => match swapPos r (off + j) (off + x) with Some r' => sigmaLoop off (S j) l r' | None => None end
  end.
(** Server:75-84; [sigmas]: the successive shuffles of [0 .. H-1]. *)
Fixpoint sigmaMasks (off : nat) (sigmas : list (list nat)) (r : list N) : option (list N) :=
  match sigmas with
  | [] => Some r
  | sigma :: l => match sigmaLoop off 1 (tail sigma) r with Some r' => sigmaMasks (off + length sigma) l r' | None => None end
  end.
(** Server:86-91, [pi1SigmaRS]. *)
Definition maskMessage (pi1 : list nat) (r s : list N) : option (list N) :=
  mapM (fun k => match r !! k, s !! k with Some a, Some b => Some (N.lxor a b) | _, _ => None end) pi1.

(** ** The server's table *)

(** Server:129-141, [mCuckooData]: value and slot of the occupied slots. [None]: an index beyond the inputs. *)
Fixpoint tableFrom (i : N) (bins inputs : list N) : option (list (N * N)) :=
  match bins with
  | [] => Some []
  | w :: bins' =>
      if isEmpty w then tableFrom (i + 1) bins' inputs
      else match readN inputs (wordIdx w), tableFrom (i + 1) bins' inputs with
           | Some v, Some l => Some ((v, i mod 2 ^ 32) :: l)
           | _, _ => None
           end
  end.
(** The array has one entry per input (Server:119-120): more is a write beyond the end, fewer leaves entries uninitialised. *)
Definition tableOf (bins inputs : list N) : option (list (N * N)) :=
  match tableFrom 0 bins inputs with
  | Some l => if (length l =? length inputs)%nat then Some l else None
  | None => None
  end.

(** Server:461-501, [find]: signed 64-bit bounds. *)
Fixpoint findLoop (fuel : nat) (data : list (N * N)) (c : N) (left right : Z) : outcome N :=
  if (left <=? right)%Z then
    match fuel with
    | O => OutOfFuel
    | S f =>
        let m := Z.quot (left + right) 2 in
        if (Z.of_nat (length data) <=? m)%Z || (m <? 0)%Z then Thrown 0
        else match data !! Z.to_nat m with
             | None => UB
             | Some e =>
                 if e.2 <? c then findLoop f data c (m + 1) right
                 else if c <? e.2 then findLoop f data c left (m - 1)
                 else Done (Z.to_N m)
             end
    end
  else Done (Z.to_N left).
(** Server:461-501 from the whole range. *)
Definition find (data : list (N * N)) (c : N) : outcome N :=
  findLoop (S (length data)) data c 0 (Z.of_nat (length data) - 1).

(** ** Evaluation of a region *)

(** Server:271-304, one item: [out[base + j] ^= bits[j] & v]. [None]: out of bounds, or a byte that is neither 0 nor 1
    ([zeroAndAllOne] has two entries). *)
Definition addItem (base : nat) (bits : list N) (v : N) (out : list N) : option (list N) :=
  if forallb (fun b => b <? 2) bits && (base + length bits <=? length out)%nat then
    Some (take base out ++ zip_with (fun b x => N.lxor x (if b =? 1 then v else 0)) bits (drop base out) ++ drop (base + length bits) out)
  else None.
(** Server:264-305, the items of a block: [shareIter] advances by 8 per full step and is not reset between items, nor moved by the remainder. *)
Fixpoint addItems (base : nat) (bits : list N) (endIdx : N) (items : list (N * N)) (out : list N) : option (list (N * N) * list N) :=
  match items with
  | e :: items' =>
      if e.2 <? endIdx then
        match addItem base bits e.1 out with
        | Some out' => addItems (base + 8 * (length bits / 8)) bits endIdx items' out'
        | None => None
        end
      else Some (items, out)
  | [] => Some ([], out)
  end.
(** Server:216-308, the blocks of the region. *)
Fixpoint evalBlocks (aes : bool -> N -> N) (B : N) (n : nat) (mk : multiKey) (items : list (N * N)) (endIdx : N) (out : list N)
    : outcome (list N) :=
  match n with
  | O => Done out
  | S n' =>
      match mkYield aes mk with
      | Done (mk', bits) =>
          match addItems 0 bits endIdx items out with
          | Some (items', out') => evalBlocks aes B n' mk' items' ((endIdx + B) mod 2 ^ 32) out'
          | None => UB
          end
      | Thrown _ => Thrown out
      | UB => UB
      | OutOfFuel => OutOfFuel
      end
  end.
(** Server:184-330, [eval]: [endIdx] starts at the slot of the first item plus the block size (Server:214). *)
Definition evalBin (aes : bool -> N -> N) (B : N) (keys : list key) (items : list (N * N)) (out : list N) (tableSize : N)
    : outcome (list N) :=
  if negb (tableSize mod B =? 0) then Thrown out
  else match items with
       | [] => Done out
       | e :: _ =>
           match multiInit keys with
           | Done mk => evalBlocks aes B (N.to_nat (divCeil tableSize B)) mk items ((e.2 + B) mod 2 ^ 32) out
           | Thrown _ => Thrown out
           | UB => UB
           | OutOfFuel => OutOfFuel
           end
       end.

(** Server:372-373, the slots of region [b]. *)
Definition regionBounds (slots regions B b : N) : N * N :=
  (roundUpTo (divCeil (b * slots mod two64) regions) B, roundUpTo (divCeil ((b + 1) * slots mod two64) regions) B).
(** The bins of thread [t] of [T], Server:370. *)
Definition threadBins (regions T t : nat) : list nat := filter (fun b => (b mod T = t)%nat) (seq 0 regions).

(** Server:370-393, region [b]; [rows]: the shares, one row of [mBinSize * mBigBlockSize] per region. *)
Definition serverRegion (p : dparams) (aes : bool -> N -> N) (keys : list (list key)) (data : list (N * N)) (b : nat) (rows : list (list N))
    : option (list (list N)) :=
  let '(lo, hi) := regionBounds (dSlots p) (N.of_nat (dS p)) (N.of_nat (dB p)) (N.of_nat b) in
  match find data lo, find data hi, (keys !! b : option (list key)), (rows !! b : option (list N)) with
  | Done i, Done e, Some ks, Some out =>
      match evalBin aes (N.of_nat (dB p)) ks (take (N.to_nat e - N.to_nat i) (drop (N.to_nat i) data)) out ((hi - lo) mod 2 ^ 32) with
      | Done out' => Some (<[b := out']> rows)
      | _ => None
      end
  | _, _, _, _ => None
  end.
(** Server:368-407, the threads: the regions in the order [order] in which they are finished. A region writes its own row only, so that
    finer interleavings give the same shares. *)
Fixpoint serverRegions (p : dparams) (aes : bool -> N -> N) (keys : list (list key)) (data : list (N * N)) (order : list nat) (rows : list (list N))
    : option (list (list N)) :=
  match order with
  | [] => Some rows
  | b :: order' => match serverRegion p aes keys data b rows with
                   | Some rows' => serverRegions p aes keys data order' rows'
                   | None => None
                   end
  end.
(** Server:368-407: the shares of all regions, one after the other. *)
Definition serverShares (p : dparams) (aes : bool -> N -> N) (keys : list (list key)) (data : list (N * N)) (order : list nat) : option (list N) :=
  match serverRegions p aes keys data order (replicate (dS p) (replicate (dBin p * dB p) 0)) with
  | Some rows => Some (concat rows)
  | None => None
  end.

(** Server:412-422, what server 1 sends. *)
Definition server1Message (shares piS1 : list N) : list N := zip_with N.lxor shares piS1.
(** Server:424-453, the input of server 0 to the final protocol; [rs]: [mPi1SigmaRS]. *)
Definition server0Input (shares msg1 rs : list N) (pi0 : list nat) (piS0 : list N) : option (list N) :=
  mapM (fun e : (N * N) * (nat * N) =>
          match rs !! e.2.1 with Some v => Some (N.lxor (N.lxor e.1.1 (N.lxor v e.2.2)) e.1.2) | None => None end)
       (zip (zip shares msg1) (zip pi0 piS0)).

(** ** A run *)

(** The random choices: masks, key seeds, the shuffle [pi1], the shuffles of
    the item masks, and the servers' orders of regions.
    DrrnPsiClient.cpp:99-111, 158, DrrnPsiServer.cpp:69-92, 368-407. *)
Record dchoices := mkChoices {
  cMask : N -> N; cSeed : nat -> N; cPi1 : list nat; cSigmas : list (list nat); cOrder0 : list nat; cOrder1 : list nat }.

(** Client:45-201, before anything is permuted. *)
Definition clientLayout (p : dparams) (enc : N -> N) (aes : bool -> N -> N) (prng : N -> N * N) (c : dchoices) (inputs : list N)
    : option (list (list qentry)) :=
  let hs := map (fun x => N.lxor (enc x) x) inputs in
  if negb (length inputs =? dN p)%nat then None   (* Client:45-46 *)
  else match domainParams (dSlots p) (N.of_nat (dS p)) (N.of_nat (dB p)), clientBins p hs with
       | Done (d, g), Some bins =>
           layout p aes prng (cSeed c) (N.to_nat d) (N.to_nat g) (maskList (cMask c) (permSize p) 0) inputs hs 0 bins (dN p * dH p)
       | _, _ => None
       end.

(** The items the client reports: Client:43-246 with the two servers. Both servers hold the table [bins] and the set [serverSet].
    The final protocol yields the positions of the client's values that are among the server's; [inputMap] maps them to items
    (Client:240-244); the result is a set. *)
Definition drrn (p : dparams) (enc : N -> N) (aes : bool -> N -> N) (prng : N -> N * N) (c : dchoices) (serverSet bins inputs : list N)
    : option (list nat) :=
  let P := permSize p in
  let r := maskList (cMask c) P 0 in
  let piS1 := maskList (cMask c) P 1 in
  let s := maskList (cMask c) P 2 in
  match clientLayout p enc aes prng c inputs, tableOf bins serverSet with
  | Some l, Some data =>
      match clientPerm (piOf p l) (cPi1 c) piS1 s, sigmaMasks 0 (cSigmas c) r with
      | Some (pi0, piS0), Some r' =>
          match maskMessage (cPi1 c) r' s,
                serverShares p aes (map (map qK0) l) data (cOrder0 c), serverShares p aes (map (map qK1) l) data (cOrder1 c) with
          | Some rs, Some sh0, Some sh1 =>
              match server0Input sh0 (server1Message sh1 piS1) rs pi0 piS0 with
              | Some final => Some (remove_dups (map fst (filter (fun e : nat * N => e.2 ∈ final) (omap qReal (concat l)))))
              | None => None
              end
          | _, _, _ => None
          end
      | _, _ => None
      end
  | _, _ => None
  end.
