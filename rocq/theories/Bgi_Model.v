(** Model of the distributed point function and the two-server PIR,
    libPSI/PIR/BgiPirClient.cpp and libPSI/PIR/BgiPirServer.cpp.

    Simplifications for the whole file.
    - A [block] is a number; [aes false], [aes true] are AES under the keys ZeroBlock and OneBlock
      (Client:110-111, Server:12-13), arbitrary functions.
    - A [span<block>] is a list. Byte pointers into it see the blocks in little-endian order.
    - The arguments [bb], [ss], [tt] of [evalOne] are debug output and left out.
    - [kIdx >> shift] converted to [u8], then [& 1], is bit [shift] of [kIdx]. *)
From Verif Require Import Base.

(** ** Blocks *)

(** [b & notThreeBlock], Client:92, Server:14. *)
Definition notThree (b : N) : N := N.land b (2 ^ 128 - 4).
(** [lsb], Server:24-27. *)
Definition lsb (b : N) : bool := N.testbit b 0.
(** [zeroAndAllOne[t] & b] for a block [b] below 2^128.
    BgiPirClient.cpp:171-172, BgiPirServer.cpp:159, 294. *)
Definition maskIf (t : bool) (b : N) : N := if t then b else 0.
(** A bit as a number, as in BgiPirClient.cpp:115-116, 171-172. *)
Definition bit2N (t : bool) : N := if t then 1 else 0.

(** [AES(s) ^ s], e.g. Client:126-133, Server:152-155. *)
Definition prg (aes : bool -> N -> N) (c : bool) (s : N) : N := N.lxor (aes c s) s.

(** ** Client *)

(** Client:33-45, [bytesToUint128_t]: bit [i] of the byte string becomes bit [i] of the number. More than 16 bytes: throws. *)
Fixpoint bitsToN (n : nat) (bit : nat -> bool) (idx : N) : N :=
  match n with
  | O => idx
  | S n' => let idx' := bitsToN n' bit idx in if bit n' then N.setbit idx' (N.of_nat n') else idx'
  end.
(** BgiPirClient.cpp:33-45, all bytes of [data]. *)
Definition bytesToUint128 (data : list N) : outcome N :=
  if (16 <? length data)%nat then Thrown 0
  else Done (bitsToN (length data * 8)
               (fun i => match data !! (i / 8)%nat with Some b => N.testbit b (N.of_nat (i mod 8)) | None => false end) 0).

(** One level of key generation, Client:113-176: the correction word and the next two states. *)
Definition keyGenStep (aes : bool -> N -> N) (keep : bool) (s0 s1 : N) : N * N * N :=
  let ss0 := notThree s0 in
  let ss1 := notThree s1 in
  let si0 c := prg aes c ss0 in
  let si1 c := prg aes c ss1 in
  let siXOR c := N.lxor (si0 c) (si1 c) in
  let a := bit2N keep in
  let t0 := N.lxor (N.lxor (N.land 1 (siXOR false)) a) 1 in
  let t1 := N.lxor (N.land 1 (siXOR true)) a in
  let scw := notThree (siXOR (negb keep)) in
  let cw := N.lxor (N.lxor scw (N.shiftl t0 1)) t1 in
  let tKeep := if keep then t1 else t0 in
  (cw, N.lxor (si0 keep) (maskIf (lsb s0) (N.lxor scw tKeep)),
       N.lxor (si1 keep) (maskIf (lsb s1) (N.lxor scw tKeep))).

(** Client:113-176, [n] levels left, so [shift = n - 1]. *)
Fixpoint keyGenLoop (aes : bool -> N -> N) (n : nat) (kIdx s0 s1 : N) : list N * N * N :=
  match n with
  | O => ([], s0, s1)
  | S n' =>
      match keyGenStep aes (N.testbit kIdx (N.of_nat n')) s0 s1 with
      | (cw, s0', s1') =>
          match keyGenLoop aes n' kIdx s0' s1' with
          | (cws, e0, e1) => (cw :: cws, e0, e1)
          end
      end
  end.

(** The expansion of a leaf, Client:184-194, Server:95-105: block [i] of the pad. *)
Definition leafBlock (aes : bool -> N -> N) (s : N) (i : nat) : N := prg aes false (N.lxor (notThree s) (N.of_nat i)).

(** Client:178-214: XOR of the two pads, with one bit flipped in byte [byteIdx]; the byte is in block
    [byteIdx / 16]. Writing outside the buffer: [None]. *)
Definition groupWord (aes : bool -> N -> N) (gs : nat) (gIdx s0 s1 : N) : option (list N) :=
  let gs0 := map (fun i => N.lxor (leafBlock aes s0 i) (leafBlock aes s1 i)) (seq 0 gs) in
  let byteIdx := gIdx mod 16 + 16 * (gIdx / 128) in
  let bitIdx := (gIdx mod 128) / 16 in
  match readN gs0 (byteIdx / 16) with
  | None => None
  | Some b => writeN gs0 (byteIdx / 16) (N.lxor b (N.shiftl 1 (8 * (byteIdx mod 16) + bitIdx)))
  end.

(** Keys and group words of both servers: [(k0, g0, k1, g1)]. The output
    arguments of [keyGen], BgiPirClient.cpp:87. *)
Definition keyPair : Type := list N * list N * list N * list N.

(** Client:87-215. [depth + 1] is the size of [k0] and [k1], [gs] that of [g0] and [g1]; [prng seed] the two blocks
    of [PRNG(seed)]. Division by zero throws (boost). *)
Definition keyGen (aes : bool -> N -> N) (prng : N -> N * N) (depth gs : nat) (idx seed : N) : outcome keyPair :=
  if (gs =? 0)%nat then Thrown ([], [], [], [])
  else
    let kIdx := idx / (N.of_nat gs * 128) in
    let gIdx := idx mod (N.of_nat gs * 128) in
    let s1 := snd (prng seed) in
    let s0 := N.lxor (N.land (fst (prng seed)) (2 ^ 128 - 2)) (N.lxor (N.land s1 1) 1) in
    match keyGenLoop aes depth kIdx s0 s1 with
    | (cws, e0, e1) =>
        match groupWord aes gs gIdx e0 e1 with
        | None => UB
        | Some g => Done (s0 :: cws, g, s1 :: cws, g)
        end
    end.

(** ** Server: one position *)

(** Server:146-186. *)
Definition traverseOne (aes : bool -> N -> N) (s cw : N) (keep : bool) : N :=
  let ss := notThree s in
  let d c := if c : bool then N.land cw 1 else N.land (N.shiftr cw 1) 1 in
  N.lxor (maskIf (lsb s) (N.lxor (notThree cw) (d keep))) (prg aes keep ss).

(** Server:130-144, with [depth] the number of correction words; [shift] is the number of words after the present one. *)
Fixpoint traverse (aes : bool -> N -> N) (s : N) (cws : list N) (idx : N) : N :=
  match cws with
  | [] => s
  | cw :: cws' => traverse aes (traverseOne aes s cw (N.testbit idx (N.of_nat (length cws')))) cws' idx
  end.

(** Server:66-128. [None] = out of bounds. Division by zero throws. *)
Definition evalOne (aes : bool -> N -> N) (idx : N) (k g : list N) : outcome bool :=
  match k with
  | [] => UB
  | k0 :: cws =>
      if (length g =? 0)%nat then Thrown false
      else
        let kIdx := idx / (N.of_nat (length g) * 128) in
        let gIdx := idx mod (N.of_nat (length g) * 128) in
        let byteIdx := gIdx mod 16 + 16 * (gIdx / 128) in
        let bitIdx := (gIdx mod 128) / 16 in
        let s := traverse aes k0 cws kIdx in
        let byteOf b := (b / 2 ^ (8 * (byteIdx mod 16))) mod 256 in
        match readN (map (leafBlock aes s) (seq 0 (length g))) (byteIdx / 16), readN g (byteIdx / 16) with
        | Some v, Some w => Done (N.testbit (N.lxor (byteOf v) (byteOf w * bit2N (lsb s))) bitIdx)
        | _, _ => UB
        end
  end.

(** Server:57-64: the overload taking the position as bytes. *)
Definition evalOneBytes (aes : bool -> N -> N) (idx : list N) (k g : list N) : outcome bool :=
  match k with
  | [] => UB
  | _ :: cws =>
      if (N.of_nat (length idx) =? (N.of_nat (length cws) + N.log2 (128 * N.of_nat (length g)) + 7) / 8) then
        match bytesToUint128 idx with
        | Done i => evalOne aes i k g
        | _ => Thrown false
        end
      else Thrown false
  end.

(** ** Server: whole domain *)

(** [_mm_srai_epi16] on one 16-bit lane: arithmetic shift right of the
    sign-extended lane. BgiPirServer.cpp:307-314. *)
Definition sraLane (v : N) (k : N) : N :=
  ((v + (if 2 ^ 15 <=? v then (2 ^ 16 - 1) * 2 ^ 16 else 0)) / 2 ^ k) mod 2 ^ 16.
(** The 16 bytes of [mask & _mm_srai_epi16(b, k)], Server:307-314 and its copies. *)
Definition sraBytes (b k : N) : list N :=
  concat (map (fun l => let v := sraLane ((b / 2 ^ (16 * N.of_nat l)) mod 2 ^ 16) k in
                        [N.land v 1; N.land (v / 256) 1]) (seq 0 8)).
(** The eight blocks of [expandedS] as 128 bytes. BgiPirServer.cpp:285-286,
    307-314. *)
Definition expandBlock (b : N) : list N := concat (map (fun k => sraBytes b (N.of_nat k)) (seq 0 8)).

(** A leaf as bytes, one per position: Server:290-314, 495-579, 803-822, 921-985. *)
Definition leafWords (aes : bool -> N -> N) (s : N) (g : list N) : list N :=
  imap (fun i gi => N.lxor (leafBlock aes s i) (maskIf (lsb s) gi)) g.
(** BgiPirServer.cpp:290-314, 495-579, 803-822, 921-985: all group words of
    the leaf. *)
Definition leafBytes (aes : bool -> N -> N) (s : N) (g : list N) : list N :=
  concat (map expandBlock (leafWords aes s g)).

(** The first levels, Server:262-273 and 721-732: [n] levels of [cws]. *)
Fixpoint topLevels (aes : bool -> N -> N) (n : nat) (cws prev : list N) : option (list N) :=
  match n with
  | O => Some prev
  | S n' =>
      match cws with
      | [] => None
      | cw :: cws' => topLevels aes n' cws' (concat (map (fun s => [traverseOne aes s cw false; traverseOne aes s cw true]) prev))
      end
  end.

(** One subtree (or one key of [MultiKey]): its stack of states, its
    correction words and its group word. BgiPirServer.h:39, 50-59 (one
    column of [State]), 89-92 (one column of [mS], [mK], [mG]). *)
Record lane := mkLane { lStack : list N; lCw : list N; lG : list N }.

(** One level down in one lane: Server:418-466, 869-916, 1166-1220. *)
Definition laneDown (aes : bool -> N -> N) (d : nat) (keep : bool) (l : lane) : option lane :=
  match lStack l !! d, lCw l !! d with
  | Some s, Some cw =>
      let ss := notThree s in
      let tau := N.lxor ss (aes keep ss) in
      let tcw := if keep then N.land cw 1 else N.land (N.shiftr cw 1) 1 in
      let stcw := maskIf (lsb s) (N.lxor tcw (notThree cw)) in
      if (S d <? length (lStack l))%nat
      then Some (mkLane (<[S d := N.lxor stcw tau]> (lStack l)) (lCw l) (lG l))
      else None
  | _, _ => None
  end.

(** [while (d != dEnd)], Server:412-486, 863-919, 1157-1233; [fuel] levels at most, [None] if that is not enough. *)
Fixpoint descend (aes : bool -> N -> N) (fuel : nat) (dEnd d idx : N) (ls : list lane) : option (list lane) :=
  if d =? dEnd then Some ls
  else match fuel with
       | O => None
       | S f =>
           match mapM (laneDown aes (N.to_nat d) (N.testbit idx (dEnd - 1 - d))) ls with
           | None => None
           | Some ls' => descend aes f dEnd (d + 1) idx ls'
           end
       end.

(** [d -= log2floor((idx + 1) ^ idx) + 1], 64-bit: Server:657-658, 996-997, 1235-1236. *)
Definition ascend (d idx : N) : N := (d + 2 ^ 64 - (N.log2 (N.lxor (idx + 1) idx) + 1)) mod 2 ^ 64.

(** The leaves of the lanes at level [d], as bytes.
    BgiPirServer.cpp:290-294, 495-531. *)
Definition laneLeaf (aes : bool -> N -> N) (d : nat) (l : lane) : option (list N) :=
  match lStack l !! d with
  | Some s => Some (leafBytes aes s (lG l))
  | None => None
  end.

(** *** [FullDomainGenerator] *)

(** BgiPirServer.h:35-72, the members of [FullDomainGenerator]. *)
Record generator := mkGen {
  gnK : list N; gnG : list N; gnPrev : list N; gnHasMore : bool;
  gnIdx : N; gnD : N; gnDEnd : N; gnLanes : list lane }.

(** Default constructed: Server.h:43-48. *)
Definition gen0 : generator := mkGen [] [] [] false 0 0 0 [].

(** Server:713-784. [prev.resize(1, k[0])] keeps an existing first element; [state.kIdx] and [state.d] are not
    touched. The rows of [ss] below the first are written before they are read, so they start as 0. *)
Definition genInit (aes : bool -> N -> N) (k g : list N) (o : generator) : outcome generator :=
  match k with
  | [] => UB
  | k0 :: cws =>
      let kDepth := length cws in
      match topLevels aes (Nat.min 3 kDepth) cws (resize 1 k0 (gnPrev o)) with
      | None => UB
      | Some prev =>
          if (kDepth <? 3)%nat then Done (mkGen k g prev true (gnIdx o) (gnD o) (gnDEnd o) (gnLanes o))
          else
            Done (mkGen k g prev true (gnIdx o) (gnD o) (N.of_nat (kDepth - 3))
                    (map (fun s => mkLane (s :: replicate (kDepth - 3) 0) (drop 3 cws) g) prev))
      end
  end.

(** Server:787-1009, [yeild]: the pairs (first position, bytes), and the object. Past the end: throws. *)
Definition genYield (aes : bool -> N -> N) (o : generator) : outcome (generator * list (N * list N)) :=
  let L := N.of_nat (length (gnG o)) * 128 in
  if (length (gnK o) - 1 <? 3)%nat then
    match readN (gnPrev o) (gnIdx o) with
    | Some s =>
        let i := gnIdx o + 1 in
        Done (mkGen (gnK o) (gnG o) (gnPrev o) (i <? N.of_nat (length (gnPrev o))) i (gnD o) (gnDEnd o) (gnLanes o),
              [(gnIdx o * L, leafBytes aes s (gnG o))])
    | None => Thrown (o, [])
    end
  else if gnIdx o =? 2 ^ gnDEnd o then Thrown (o, [])
  else
    match descend aes (N.to_nat (gnDEnd o)) (gnDEnd o) (gnD o) (gnIdx o) (gnLanes o) with
    | None => UB
    | Some ls =>
        if (length (gnG o) =? 0)%nat then UB   (* [temp[0]] of an empty vector, Server:944 *)
        else
          match mapM (laneLeaf aes (N.to_nat (gnDEnd o))) ls with
          | None => UB
          | Some bs =>
              Done (mkGen (gnK o) (gnG o) (gnPrev o) (negb (gnIdx o + 1 =? 2 ^ gnDEnd o)) (gnIdx o + 1)
                      (ascend (gnDEnd o) (gnIdx o)) (gnDEnd o) ls,
                    imap (fun j b => ((N.shiftl (N.of_nat j) (gnDEnd o) + gnIdx o) * L, b)) bs)
          end
    end.

(** *** [fullDomain] *)

(** [sum ^ (data[i] & zeroAndAllOne[byte])] over consecutive positions, Server:321-323, 605-654. *)
Fixpoint sumBytes (data : list N) (pos : N) (bytes : list N) (sum : N) : option N :=
  match bytes with
  | [] => Some sum
  | b :: bytes' =>
      match readN data pos with
      | None => None
      | Some x =>
          if b <? 2 then sumBytes data (pos + 1) bytes' (N.lxor sum (maskIf (b =? 1) x)) else None
      end
  end.

(** Small trees, Server:280-352. *)
Fixpoint smallLoop (aes : bool -> N -> N) (data g prev : list N) (pos sum : N) : option N :=
  match prev with
  | [] => Some sum
  | s :: prev' =>
      let bytes := leafBytes aes s g in
      match sumBytes data pos bytes sum with
      | None => None
      | Some sum' => smallLoop aes data g prev' (pos + N.of_nat (length bytes)) sum'
      end
  end.

(** The eight sums of one leaf index, Server:596-654. *)
Fixpoint laneSums (data : list N) (L d idx : N) (j : N) (bs : list (list N)) (sums : list N) : option (list N) :=
  match bs, sums with
  | b :: bs', s :: sums' =>
      match sumBytes data ((N.shiftl j d + idx) * L) b s, laneSums data L d idx (j + 1) bs' sums' with
      | Some s', Some r => Some (s' :: r)
      | _, _ => None
      end
  | [], [] => Some []
  | _, _ => None
  end.

(** [while (idx != end)], Server:410-698; [fuel] iterations at most. *)
Fixpoint bigLoop (aes : bool -> N -> N) (fuel : nat) (data g : list N) (dEnd d idx : N) (ls : list lane) (sums : list N)
  : outcome (list N) :=
  if idx =? 2 ^ dEnd then Done sums
  else match fuel with
       | O => OutOfFuel
       | S f =>
           match descend aes (N.to_nat dEnd) dEnd d idx ls with
           | None => UB
           | Some ls' =>
               if (length g =? 0)%nat then UB
               else
                 match mapM (laneLeaf aes (N.to_nat dEnd)) ls' with
                 | None => UB
                 | Some bs =>
                     match laneSums data (N.of_nat (length g) * 128) dEnd idx 0 bs sums with
                     | None => UB
                     | Some sums' => bigLoop aes f data g dEnd (ascend dEnd idx) (idx + 1) ls' sums'
                     end
                 end
           end
       end.

(** Server:251-712. *)
Definition fullDomain (aes : bool -> N -> N) (data k g : list N) : outcome N :=
  match k with
  | [] => UB
  | k0 :: cws =>
      let kDepth := length cws in
      if N.of_nat (length data) =? 2 ^ N.of_nat kDepth * N.of_nat (length g) * 128 then
        match topLevels aes (Nat.min 3 kDepth) cws [k0] with
        | None => UB
        | Some prev =>
            if (kDepth <? 3)%nat then
              match smallLoop aes data g prev 0 0 with Some s => Done s | None => UB end
            else
              match bigLoop aes (N.to_nat (2 ^ N.of_nat (kDepth - 3))) data g (N.of_nat (kDepth - 3)) 0 0
                      (map (fun s => mkLane (s :: replicate (kDepth - 3) 0) (drop 3 cws) g) prev) (replicate 8 0) with
              | Done sums => Done (fold_left N.lxor sums 0)
              | Thrown _ => Thrown 0
              | UB => UB
              | OutOfFuel => OutOfFuel
              end
        end
      else Thrown 0
  end.

(** Server:35-55 and Client:62-79: the servers answer the two keys, the client XORs. *)
Definition query (aes : bool -> N -> N) (prng : N -> N * N) (depth gs : nat) (data : list N) (idx seed : N) : outcome N :=
  match keyGen aes prng depth gs idx seed with
  | Done (k0, g0, k1, g1) =>
      match fullDomain aes data k0 g0, fullDomain aes data k1 g1 with
      | Done b0, Done b1 => Done (N.lxor b0 b1)
      | UB, _ | _, UB => UB
      | OutOfFuel, _ | _, OutOfFuel => OutOfFuel
      | _, _ => Thrown 0
      end
  | Thrown _ => Thrown 0
  | UB => UB
  | OutOfFuel => OutOfFuel
  end.

(** *** [fullDomainNaive] *)

(** [while (depth != kDepth)], Server:206-211: level [depth] takes bit [depth] of [idx]. *)
Fixpoint naiveDown (aes : bool -> N -> N) (fuel : nat) (cws : list N) (idx : N) (depth : N) (words : list N)
  : option (list N) :=
  if depth =? N.of_nat (length cws) then Some words
  else match fuel with
       | O => None
       | S f =>
           match readN words depth, readN cws depth with
           | Some s, Some cw =>
               match writeN words (depth + 1) (traverseOne aes s cw (N.testbit idx depth)) with
               | Some words' => naiveDown aes f cws idx (depth + 1) words'
               | None => None
               end
           | _, _ => None
           end
       end.
(** Server:233-240: bit [i] of the pad, [BitIterator] order. *)
Fixpoint naiveSum (gs : list N) (data : list N) (pos n : nat) (i : nat) (sum : N) : option N :=
  match n with
  | O => Some sum
  | S n' =>
      match gs !! (i / 128)%nat, data !! pos with
      | Some b, Some x =>
          naiveSum gs data (S pos) n' (S i) (if N.testbit b (N.of_nat (i mod 128)) then N.lxor sum x else sum)
      | _, _ => None
      end
  end.
(** Server:204-246; [fuel] iterations at most. The pad is not corrected by [g]. *)
Fixpoint naiveLoop (aes : bool -> N -> N) (fuel : nat) (data cws : list N) (gs : nat) (idx depth : N) (words : list N) (sum : N)
  : outcome N :=
  if idx =? 2 ^ N.of_nat (length cws) then Done sum
  else match fuel with
       | O => OutOfFuel
       | S f =>
           match naiveDown aes (length cws) cws idx depth words with
           | None => UB
           | Some words' =>
               match last words' with
               | None => UB
               | Some s =>
                   match naiveSum (map (leafBlock aes s) (seq 0 gs)) data (N.to_nat idx * (gs * 128)) (gs * 128) 0 sum with
                   | None => UB
                   | Some sum' => naiveLoop aes f data cws gs (idx + 1) (ascend (N.of_nat (length cws)) idx) words' sum'
                   end
               end
           end
       end.
(** Server:188-249. *)
Definition fullDomainNaive (aes : bool -> N -> N) (data k g : list N) : outcome N :=
  match k with
  | [] => UB
  | k0 :: cws =>
      if N.of_nat (length data) =? 2 ^ N.of_nat (length cws) * 128 * N.of_nat (length g) then
        naiveLoop aes (N.to_nat (2 ^ N.of_nat (length cws))) data cws (length g) 0 0 (k0 :: replicate (length cws) 0) 0
      else Thrown 0
  end.

(** *** [MultiKey] *)

(** Server.h:74-97. One lane per key, rounded up to a multiple of eight ([mkKeys] = [mBuff.stride()] is the number without padding). *)
Record multiKey := mkMulti {
  mkKeys : nat; mkGSize : nat; mkDEnd : N; mkD : N; mkLeaf : N; mkGIdx : nat; mkBIdx : nat;
  mkLanes : list lane; mkBuff : list (list N) }.

(** Server:1076-1094; matrices are zero-initialised. *)
Definition mkInit (numKeys kSize gSize : nat) : multiKey :=
  mkMulti numKeys gSize (N.of_nat (kSize - 1)) 0 0 gSize 128
    (replicate (8 * ((numKeys + 7) / 8)) (mkLane (replicate kSize 0) (replicate kSize 0) (replicate gSize 0)))
    (replicate 128 (replicate numKeys 0)).

(** Server:1096-1117; [mK] has a last row that is never written nor read. *)
Definition setKey (i : nat) (k g : list N) (o : multiKey) : outcome multiKey :=
  match mkLanes o !! i with
  | None => UB
  | Some l =>
      if negb (length k =? length (lCw l))%nat || negb (length g =? mkGSize o)%nat then Thrown o
      else match k, lStack l with
           | k0 :: cws, _ :: st =>
               Done (mkMulti (mkKeys o) (mkGSize o) (mkDEnd o) (mkD o) (mkLeaf o) (mkGIdx o) (mkBIdx o)
                       (<[i := mkLane (k0 :: st) (cws ++ drop (length cws) (lCw l)) g]> (mkLanes o)) (mkBuff o))
           | _, _ => UB
           end
  end.

(** Server:1064-1074. *)
Fixpoint setKeys (i : nat) (keys : list (list N * list N)) (o : multiKey) : outcome multiKey :=
  match keys with
  | [] => Done o
  | (k, g) :: keys' => andThen (setKey i k g o) (setKeys (S i) keys')
  end.
(** BgiPirServer.cpp:1064-1074: [init(keys, groups)] of [MultiKey]. *)
Definition multiInit (keys : list (list N * list N)) : outcome multiKey :=
  match keys with
  | [] => UB   (* [k[0]] *)
  | (k, g) :: _ => setKeys 0 keys (mkInit (length keys) (length k) (length g))
  end.

(** Block [gIdx] of the leaf of one lane as 128 bytes, Server:1254-1305. *)
Definition laneBlock (aes : bool -> N -> N) (dd gIdx : nat) (l : lane) : option (list N) :=
  match lStack l !! dd, lG l !! gIdx with
  | Some s, Some gi => Some (expandBlock (N.lxor (leafBlock aes s gIdx) (maskIf (lsb s) gi)))
  | _, _ => None
  end.
(** [mBuff] after Server:1296-1337: column [i] is the expansion of lane [i], for the lanes that are not padding. *)
Definition fillBuff (cols : list (list N)) : list (list N) :=
  map (fun r => map (fun col => default 0 (col !! r)) cols) (seq 0 128).

(** Server:1138-1344, [yeild]. [mGIdx] is set to 0 before the test that throws (:1154-1155). *)
Definition mkYield (aes : bool -> N -> N) (o : multiKey) : outcome (multiKey * list N) :=
  let out o' := match mkBuff o' !! mkBIdx o' with
                | Some row => Done (mkMulti (mkKeys o') (mkGSize o') (mkDEnd o') (mkD o') (mkLeaf o') (mkGIdx o')
                                      (S (mkBIdx o')) (mkLanes o') (mkBuff o'), row)
                | None => UB
                end in
  if (mkBIdx o =? 128)%nat then
    let refill (o' : multiKey) :=
      match mapM (laneBlock aes (N.to_nat (mkDEnd o')) (mkGIdx o')) (mkLanes o') with
      | None => UB
      | Some cols => out (mkMulti (mkKeys o') (mkGSize o') (mkDEnd o') (mkD o') (mkLeaf o') (S (mkGIdx o')) 0
                            (mkLanes o') (fillBuff (take (mkKeys o') cols)))
      end in
    if (mkGIdx o =? mkGSize o)%nat then
      if mkLeaf o =? 2 ^ mkDEnd o then
        Thrown (mkMulti (mkKeys o) (mkGSize o) (mkDEnd o) (mkD o) (mkLeaf o) 0 (mkBIdx o) (mkLanes o) (mkBuff o), [])
      else match descend aes (N.to_nat (mkDEnd o)) (mkDEnd o) (mkD o) (mkLeaf o) (mkLanes o) with
           | None => UB
           | Some ls =>
               refill (mkMulti (mkKeys o) (mkGSize o) (mkDEnd o) (ascend (mkDEnd o) (mkLeaf o)) (mkLeaf o + 1) 0 (mkBIdx o)
                         ls (mkBuff o))
           end
    else refill o
  else out o.
