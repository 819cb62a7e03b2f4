(** Model of PRTY, libPSI/PSI/Prty/PrtyReceiver.cpp ("Receiver"), PrtySender.cpp ("Sender"), PrtyDefines.h ("Defines"), the functions [init] and [output].

    Taken as arbitrary functions: the ciphers keyed by the OT messages ([aesT], [aesU], one per column), the cipher of the masks ([henc]), and the
    interpolation and evaluation of a polynomial ([interp points x]: the value at [x] of the polynomial through [points]).
    The OT: the sender's cipher of column [i] is the receiver's [aesU] if its choice bit is set and [aesT] otherwise.
    The sender's file is not valid C++ (Sender:60, 139): of the sender only the lines that are cited are modelled, with the bins of the balanced
    allocation. [log2] is exact. Sizes of vectors are unbounded. *)
From Verif Require Import Base Partition_Model Ecdh_Model File_Model File_Spec Balanced_Model.

(** Defines:94-102, [mm_bitshift_right]: shifts in 64-bit lanes. *)
Definition lanes (lo hi : N) : N := lo + two64 * hi.
(** [_mm_slli_epi64], PrtyDefines.h:94-102. *)
Definition shl64 (x c : N) : N := lanes (N.shiftl (x mod two64) c mod two64) (N.shiftl (x / two64) c mod two64).
(** [_mm_srli_epi64], PrtyDefines.h:94-102. *)
Definition shr64 (x c : N) : N := lanes (N.shiftr (x mod two64) c) (N.shiftr (x / two64) c).
(** PrtyDefines.h:94-102, the whole function. *)
Definition mmShift (x c : N) : N :=
  let carry := lanes 0 (x mod two64) in
  if 64 <=? c then shl64 carry (c - 64) else N.lor (shl64 x c) (shr64 carry (64 - c)).
(** Defines:114-118, [mOneBlocks]. *)
Definition oneBlocks : list N := map (fun i => mmShift 1 (N.of_nat i)) (seq 0 128).
(** PrtyDefines.h:114-118: entry [i]. *)
Definition oneBlk (i : nat) : N := nth i oneBlocks 0.

(** Defines:45-66. *)
Definition fieldSizeOf (n : N) : nat :=
  if n <=? 2 ^ 10 then 416 else if n <=? 2 ^ 12 then 420 else if n <=? 2 ^ 14 then 424 else if n <=? 2 ^ 16 then 428
  else if n <=? 2 ^ 18 then 432 else if n <=? 2 ^ 20 then 436 else if n <=? 2 ^ 22 then 436 else 444.
(** Receiver:30-35, Sender:29-34. *)
Definition truncBlk (F : nat) : N := foldr N.lxor 0 (map oneBlk (seq 0 (F - 384))).

(** The parts that are oracles, and the choice bits of the sender. AES
    (PrtyDefines.h:120-150), the hash of PrtyReceiver.cpp:157-170 and the
    polynomials of PrtyReceiver.cpp:112-146; the choice bits
    PrtySender.cpp:43-58. *)
Record prty := mkPrty {
  aesT : nat -> N -> N; aesU : nat -> N -> N; choice : nat -> bool; henc : N -> N; interp : list (N * list N) -> N -> list N }.
(** Sender:45-51. *)
Definition aesQ (P : prty) (i : nat) : N -> N := if choice P i then aesU P i else aesT P i.

(** Defines:120-150, [prfOtRows]: the row of one item, four blocks. *)
Definition columns (F off : nat) : list nat := seq 0 (Nat.min 128 (F - off)).
(** PrtyDefines.h:120-150: the columns of one block. *)
Definition prfCols (aes : nat -> N -> N) (off : nat) (x : N) (cols : list nat) : N :=
  foldr (fun i acc => N.lxor acc (N.land (aes (i + off)%nat x) (oneBlk i))) 0 cols.
(** PrtyDefines.h:120-150: block [j]. *)
Definition prfBlk (aes : nat -> N -> N) (F j : nat) (x : N) : N := prfCols aes (128 * j) x (columns F (128 * j)).
(** PrtyDefines.h:120-150: four blocks. *)
Definition prfRow (aes : nat -> N -> N) (F : nat) (x : N) : list N := map (fun j => prfBlk aes F j x) (seq 0 4).
(** Receiver:129-132. *)
Definition xorRows (a b : list N) : list N := zip_with N.lxor a b.
(** The last of the four blocks is cut to the field size: Receiver:159, Sender:248-249. *)
Definition truncRow (F : nat) (r : list N) : list N := imap (fun j b => if (j =? 3)%nat then N.land b (truncBlk F) else b) r.
(** Receiver:160-163, Sender:252-255. *)
Definition maskOfRow (P : prty) (r : list N) : N := foldr N.lxor 0 (map (henc P) r).
(** Receiver:126, 159-163. *)
Definition recvMask (P : prty) (F : nat) (x : N) : N := maskOfRow P (truncRow F (prfRow (aesT P) F x)).
(** [choiceBlocks], Sender:43-58, 77: the bits from the field size on are zero. *)
Definition choiceCols (P : prty) (off : nat) (cols : list nat) : N :=
  foldr (fun i acc => N.lor acc (if choice P (i + off)%nat then 2 ^ N.of_nat i else 0)) 0 cols.
(** PrtySender.cpp:43-58, 77: block [j]. *)
Definition choiceBlk (P : prty) (F j : nat) : N := choiceCols P (128 * j) (columns F (128 * j)).
(** Sender:145, 226, 243-255; [R] the value of the polynomial at [x]. *)
Definition sendMask (P : prty) (F : nat) (R : list N) (x : N) : N :=
  maskOfRow P (truncRow F (zip_with N.lxor (prfRow (aesQ P) F x) (zip_with N.land R (map (choiceBlk P F) (seq 0 4))))).

(** Receiver:126-138: the points of a bin's polynomial. *)
Definition binPoints (P : prty) (F : nat) (blks : list N) : list (N * list N) :=
  map (fun x => (x, xorRows (prfRow (aesT P) F x) (prfRow (aesU P) F x))) blks.
(** Receiver:112, 135-144, one step of bins: the coefficients of each polynomial are written one after the other into a buffer of [d] coefficients per
    bin ([None]: out of bounds). poly/polyNTL.cpp:145: the number of coefficients is the degree of the polynomial plus one. *)
Definition packStep (d : nat) (cs : list (list N)) : option (list N) :=
  let c := concat cs in let n := (length cs * d)%nat in if (length c <=? n)%nat then Some (c ++ replicate (n - length c) 0) else None.
(** Sender:161, 220-224. *)
Definition unpackStep (d k : nat) (buf : list N) : list (list N) := map (fun i => take d (drop (i * d) buf)) (seq 0 k).

(** A mask with its hash number and the item index.
    PrtyReceiver.cpp:157-181. *)
Definition entry : Type := N * (N * nat).
(** Receiver:157-186: the masks of all bins. [None]: an item index out of range. *)
Definition binEntries (P : prty) (F : nat) (items : list N) (b : list bitem) : option (list entry) :=
  mapM (fun it => match blkOf items it with Some x => Some (it.1, (recvMask P F x, it.2)) | None => None end) b.
(** PrtyReceiver.cpp:157-186. *)
Definition localEntries (P : prty) (F : nat) (items : list N) (bins : list (list bitem)) : option (list entry) :=
  match mapM (binEntries P F items) bins with Some l => Some (concat l) | None => None end.

(** Receiver:83, 175-181, [localMasks[h]]: keyed by the first eight bytes; [emplace] keeps an entry that is there. The list holds the values in the
    order of insertion. *)
Fixpoint emplaceAll (l : list (N * nat)) (m : list (N * nat)) : list (N * nat) :=
  match l with
  | [] => m
  | e :: l' => emplaceAll l' (if existsb (fun e' => e'.1 mod two64 =? e.1 mod two64) m then m else m ++ [e])
  end.
(** PrtyReceiver.cpp:83, 175-181: the map of hash number [h]. *)
Definition localMap (h : N) (es : list entry) : list (N * nat) := emplaceAll (map snd (filter (fun e : entry => e.1 = h) es)) [].

(** Receiver:71, Sender:74, [hashMaskBytes]. [None]: the conversion of minus infinity. *)
Definition hashBytes (n1 n2 : N) : option nat :=
  let p := n1 * n2 mod two64 in if p =? 0 then None else Some (N.to_nat ((47 + N.log2 p) / 8)).
(** [k] bytes at an offset of a buffer. [None]: beyond its end.
    PrtyReceiver.cpp:237-251. *)
Definition peek (buf : list N) (off k : nat) : option N :=
  if (off + k <=? length buf)%nat then Some (leBytes (take k (drop off buf))) else None.
(** The first [k] bytes of a block, PrtyReceiver.cpp:142, 251. *)
Definition low (k : nat) (x : N) : N := x mod 2 ^ (8 * N.of_nat k).

(** Receiver:241-265. [None]: a read beyond the buffer. *)
Fixpoint scanLarge (m : list (N * nat)) (hb : nat) (buf : list N) (off cnt : nat) : option (list nat) :=
  match cnt with
  | O => Some []
  | S cnt' =>
      match peek buf off 8 with
      | None => None
      | Some key =>
          match find (fun e => e.1 mod two64 =? key) m with
          | None => scanLarge m hb buf (off + hb) cnt'
          | Some e =>
              match peek buf off hb with
              | None => None
              | Some v =>
                  match scanLarge m hb buf (off + hb) cnt' with
                  | None => None
                  | Some out => Some (if v =? low hb e.1 then e.2 :: out else out)
                  end
              end
          end
      end
  end.
(** Receiver:272-279: the map is visited and the pointer into the buffer is advanced. *)
Fixpoint scanInner (m : list (N * nat)) (hb : nat) (buf : list N) (off : nat) : option (list nat * nat) :=
  match m with
  | [] => Some ([], off)
  | e :: m' =>
      match peek buf off hb with
      | None => None
      | Some v =>
          match scanInner m' hb buf (off + hb) with
          | None => None
          | Some (out, off') => Some (if v =? low hb e.1 then e.2 :: out else out, off')
          end
      end
  end.
(** Receiver:269-281. *)
Fixpoint scanSmall (m : list (N * nat)) (hb : nat) (buf : list N) (off cnt : nat) : option (list nat) :=
  match cnt with
  | O => Some []
  | S cnt' =>
      match scanInner m hb buf off with
      | None => None
      | Some (out, off') => match scanSmall m hb buf off' cnt' with None => None | Some out' => Some (out ++ out') end
      end
  end.
(** Receiver:239-281 for one message. [ord]: the order in which the map is visited. *)
Definition scanMsg (ord : list (N * nat) -> list (N * nat)) (m : list (N * nat)) (hb cnt : nat) (buf : list N) : option (list nat) :=
  if (8 <=? hb)%nat then scanLarge m hb buf 0 cnt else scanSmall (ord m) hb buf 0 cnt.

(** The positions of one thread in steps of [step]: Receiver:222-229, Sender:319-326. *)
Fixpoint chunks (fuel step : nat) (l : list nat) : list (list nat) :=
  match fuel, l with
  | S f, _ :: _ => take step l :: chunks f step (drop step l)
  | _, _ => []
  end.
(** PrtyReceiver.cpp:222-229, PrtySender.cpp:319-326. *)
Definition stepsOf (step n T t : nat) : list (list nat) := let l := idxRange n T t in chunks (length l) step l.

(** Sender:316-347: the messages of one thread, for each step one per hash number. [gh h]: [globalHash[h]]. *)
Definition sendThread (step hb T : nat) (gh : N -> list N) (t : nat) : list (list N) :=
  concat (map (fun ids => map (fun h => concat (map (fun i => bytesLE hb (nth i (gh h) 0)) ids)) [0; 1]) (stepsOf step (length (gh 0)) T t)).
(** Receiver:219-290: one thread. [None]: a read beyond a buffer, or a message too few. *)
Fixpoint recvSteps (ord : N -> list (N * nat) -> list (N * nat)) (es : list entry) (hb : nat) (steps : list (list nat)) (msgs : list (list N)) : option (list nat) :=
  match steps with
  | [] => Some []
  | ids :: steps' =>
      match msgs with
      | b0 :: b1 :: msgs' =>
          match scanMsg (ord 0) (localMap 0 es) hb (length ids) b0, scanMsg (ord 1) (localMap 1 es) hb (length ids) b1, recvSteps ord es hb steps' msgs' with
          | Some o0, Some o1, Some o => Some (o0 ++ o1 ++ o)
          | _, _, _ => None
          end
      | _ => None
      end
  end.
(** Receiver:294-302 with the messages of [sendThread]; the result is listed thread by thread. (The vector holds the positions in an order that depends on the
    threads. In the large-set case additions are made under a lock.) [n2]: [mTheirInputSize]. *)
Definition matchAll (ord : N -> list (N * nat) -> list (N * nat)) (step hb T n2 : nat) (es : list entry) (gh : N -> list N) : outcome (list nat) :=
  match mapM (fun t => recvSteps ord es hb (stepsOf step n2 T t) (sendThread step hb T gh t)) (seq 0 T) with
  | Some l => Done (concat l)
  | None => UB
  end.

(** Sender:243-259, [globalHash[h]]: the mask of each item for the bin of hash number [h]; the order is that of the items. [pol b]: the polynomial received
    for bin [b]. The item is XORed with the hash number as in Balanced:202-205. *)
Definition sendHashes (P : prty) (F : nat) (enc : N -> N) (m : N) (pol : nat -> N -> list N) (S : list N) (h : N) : list N :=
  map (fun x => let '(b1, b2) := binsOf enc m x in let b := if h =? 0 then b1 else b2 in
                let y := if h =? 0 then x else N.lxor x 1 in sendMask P F (pol b y) y) S.

(** The run of [output]: both parties honest, [T] channels, [recvMaxBinSize] 40 and [recvNumDummies] 1 (Defines:27-28), steps of 2^14 (Defines:24).
    [lo]: the order in which the threads insert into the maps. A bin with two equal points: the interpolation throws. *)
Definition binBlks (items : list N) (bin : list bitem) : list N := omap (blkOf items) bin.
(** PrtySender.cpp:67-361, PrtyReceiver.cpp:63-305. *)
Definition prtyRun (P : prty) (ordB : nat -> list nat -> list nat) (enc : N -> N) (rs : list N) (lo : list entry -> list entry)
    (ord : N -> list (N * nat) -> list (N * nat)) (T : nat) (R S : list N) : outcome (list nat) :=
  let F := fieldSizeOf (N.of_nat (length R)) in
  match numBinsOf (N.of_nat (length R)) 40 1, balanced ordB enc 40 1 R rs with
  | Some m, Done bins =>
      if forallb (fun bin => bool_decide (NoDup (binBlks R bin))) bins then
        let pols := map (fun bin => interp P (binPoints P F (binBlks R bin))) bins in
        match localEntries P F R bins, hashBytes (N.of_nat (length S)) (N.of_nat (length R)) with
        | Some es, Some hb =>
            let gh := sendHashes P F enc m (fun b => nth b pols (interp P [])) S in let gh0 := gh 0 in let gh1 := gh 1 in
            matchAll ord (N.to_nat (2 ^ 14)) hb T (length S) (lo es) (fun h => if h =? 0 then gh0 else gh1)
        | _, _ => UB
        end
      else Thrown []
  | _, Thrown _ | _, UB | None, _ => UB
  | _, OutOfFuel => OutOfFuel
  end.
