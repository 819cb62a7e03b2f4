(** Model of simple hashing, libPSI/Tools/SimpleIndex.{h,cpp}. *)
From Coq Require Import QArith.
From Verif Require Import Base CuckooIndex_Model.
Open Scope N_scope.

(** ** Packed items, SimpleIndex.h:34-70 *)

(** SimpleIndex.h:56-60, [Item::set]: the index, then byte 7 replaced by
    [hashIdx | (collision << 7)] (little-endian). *)
Definition itemWord (idx hashIdx : N) (collision : bool) : N :=
  N.lor (N.land idx (2 ^ 56 - 1))
        (N.shiftl (N.lor hashIdx (if collision then 128 else 0) mod 256) 56).
(** SimpleIndex.h:45, [idx()]. *)
Definition itemIdx (w : N) : N := N.land w (N.shiftr u64max 8).
(** SimpleIndex.h:49, [hashIdx()]. *)
Definition itemHashIdx (w : N) : N := N.land (N.shiftr w 56) 127.
(** SimpleIndex.h:52, [isCollision()]. *)
Definition itemCollision (w : N) : bool := 0 <? N.shiftr (N.shiftr w 56) 7.
(** SimpleIndex.h:40, [isEmpty()]. *)
Definition itemEmpty (w : N) : bool := w =? u64max.

(** ** Bin size, SimpleIndex.cpp:39-110 *)

(** SimpleIndex.cpp:39-75, [getBinOverflowProb]. The floating point sum of lines 51-74 is
    the argument [est]; [Done None] stands for [numeric_limits<double>::max()]. *)
Definition overflowProb (est : N -> N -> N -> Q) (numBins numBalls size : N) : outcome (option Q) :=
  if numBalls <=? size then Done None
  else if 2 ^ 31 - 1 <? numBalls then Thrown None
  else Done (Some (est numBins numBalls size)).

(** The comparison [currentProb < statSecParam] of line 87 ([statSecParam >
    currentProb], line 93). SimpleIndex.cpp:87, 93. *)
Definition below (prob : option Q) (stat : N) : bool :=
  match prob with
  | None => false
  | Some p => negb (Qle_bool (inject_Z (Z.of_N stat)) p)
  end.

(** SimpleIndex.cpp:87-107, the search loop, on 64-bit words. *)
Fixpoint binSizeLoop (est : N -> N -> N -> Q) (numBins numBalls stat : N) (fuel : nat)
    (B step : N) (doubling : bool) (prob : option Q) : outcome N :=
  if below prob stat || (1 <? step) then
    match fuel with
    | O => OutOfFuel
    | S fuel' =>
        if step =? 0 then Thrown 0
        else
          let '(B', step', doubling') :=
            if below prob stat then
              let step' := if doubling then N.max 1 ((step * 2) mod two64) else N.max 1 (step / 2) in
              ((B + step') mod two64, step', doubling)
            else
              let step' := N.max 1 (step / 2) in
              ((B + two64 - step') mod two64, step', false) in
          match overflowProb est numBins numBalls B' with
          | Done p => binSizeLoop est numBins numBalls stat fuel' B' step' doubling' p
          | _ => Thrown 0
          end
    end
  else Done B.

(** SimpleIndex.cpp:77-110, [get_bin_size]. *)
Definition getBinSize (est : N -> N -> N -> Q) (fuel : nat) (numBins numBalls stat : N) : outcome N :=
  if numBins =? 0 then UB
  else
    let B := N.max 1 (numBalls / numBins) in
    match overflowProb est numBins numBalls B with
    | Done p => binSizeLoop est numBins numBalls stat fuel B 1 true p
    | _ => Thrown 0
    end.

(** ** The index, SimpleIndex.h:72-87 *)

Record SIndex := mkSIndex {
  siH : N;                     (* mNumHashFunctions *)
  siNumBins : N;               (* mNumBins *)
  siBins : list (list N);      (* mBins, one row per bin *)
  siSizes : list N;            (* mBinSizes *)
  siMap : list (list N) }.     (* mItemToBinMap *)

(** SimpleIndex.cpp:113-121, [init] on a new object; [maxSize] is the result of
    [get_bin_size(numBins, numBalls * numHashFunction, statSecParam)]. *)
Definition siInit (numBins numBalls numHash maxSize : N) : SIndex :=
  mkSIndex numHash numBins
    (replicate (N.to_nat numBins) (replicate (N.to_nat maxSize) u64max))
    (replicate (N.to_nat numBins) 0)
    (replicate (N.to_nat numBalls) (replicate (N.to_nat numHash) 0)).

(** The two kinds of stores made by [insertItems]:
    [mBins(b, mBinSizes[b]++).set(idx, h, c)] and [mItemToBinMap(row, h) =
    v]. SimpleIndex.cpp:206-223, 280-281, 307-308. *)
Inductive siOp :=
| Put (b idx h : N) (c : bool)
| SetMap (row h v : N).

(** One store. [None]: the column is beyond the bin's capacity or the row or column of the
    map is out of range (undefined behaviour, or termination with a checking
    [span]). SimpleIndex.cpp:206-223, 280-281, 307-308, SimpleIndex.h:56-60. *)
Definition siExec (s : SIndex) (o : siOp) : option SIndex :=
  match o with
  | Put b idx h c =>
      match readN (siSizes s) b, readN (siBins s) b with
      | Some n, Some row =>
          match writeN row n (itemWord idx h c) with
          | None => None
          | Some row' =>
              Some (mkSIndex (siH s) (siNumBins s) (<[N.to_nat b := row']> (siBins s))
                      (<[N.to_nat b := n + 1]> (siSizes s)) (siMap s))
          end
      | _, _ => None
      end
  | SetMap row h v =>
      match readN (siMap s) row with
      | None => None
      | Some r =>
          match writeN r h v with
          | None => None
          | Some r' => Some (mkSIndex (siH s) (siNumBins s) (siBins s) (siSizes s)
                               (<[N.to_nat row := r']> (siMap s)))
          end
      end
  end.

(** The stores of SimpleIndex.cpp:124-314 in order. *)
Fixpoint siRun (s : SIndex) (ops : list siOp) : option SIndex :=
  match ops with
  | [] => Some s
  | o :: ops' => match siExec s o with None => None | Some s' => siRun s' ops' end
  end.

(** The bin of hash function [h], [CuckooIndex<>::getHash] (its failure cases are excluded in
    [siInsert] below). SimpleIndex.cpp:188-195, 226-233, 273, 300. *)
Definition binOf (nb hash h : N) : N := match getHash hash h nb with Some b => b | None => 0 end.
(** SimpleIndex.cpp:197-204, 236-243, 277-278, 304-305: an earlier hash function gives the same bin. *)
Fixpoint collidesBelow (nb hash b : N) (h : N) (n : nat) : bool :=
  match n with
  | O => false
  | S n' => (binOf nb hash h =? b) || collidesBelow nb hash b (h + 1) n'
  end.
(** SimpleIndex.cpp:197-204, 236-243, 277-278, 304-305: hash function [h]. *)
Definition collides (nb hash h : N) : bool := collidesBelow nb hash (binOf nb hash h) 0 (N.to_nat h).

(** The stores for item [idx] with hash block [hash] under function [h].
    SimpleIndex.cpp:206-213, 280, 307. *)
Definition putOp (nb idx hash h : N) : siOp := Put (binOf nb hash h) idx h (collides nb hash h).
(** SimpleIndex.cpp:216-223, 255-262, 281, 308. *)
Definition mapOp (nb row hash h : N) : siOp :=
  SetMap row h (N.lor (binOf nb hash h) (if collides nb hash h then u64max else 0)).

(** SimpleIndex.cpp:137-262, one step of 8 items: for each hash function first the 8 bin
    stores, then the 8 map stores. [lanes]: (item index, hash block). *)
Definition chunk3 (nb : N) (lanes : list (N * N)) : list siOp :=
  concat (map (fun h => map (fun l => putOp nb l.1 l.2 h) lanes ++
                        map (fun l => mapOp nb l.1 l.2 h) lanes) [0; 1; 2]).

(** SimpleIndex.cpp:265-283, the leftover items. [i] goes up by 8 (sic: [hashs.size()]) while it
    is below [remSteps] < 8, so only [i = 0] is executed. *)
Definition rem3 (nb : N) (lanes : list (N * N)) : list siOp :=
  match lanes with
  | [] => []
  | l :: _ => concat (map (fun h => [putOp nb l.1 l.2 h; mapOp nb l.1 l.2 h]) [0; 1; 2])
  end.

(** SimpleIndex.cpp:130-283, three hash functions. *)
Fixpoint main3 (nb : N) (mainSteps : nat) (items : list (N * N)) : list siOp :=
  match mainSteps with
  | O => rem3 nb items
  | S k => chunk3 nb (take 8 items) ++ main3 nb k (drop 8 items)
  end.

(** SimpleIndex.cpp:287-312, any other number of hash functions. [start] is [i]; the map row
    is [itemIdx + i] (sic), where [itemIdx] already starts at [i]. *)
Fixpoint mainN (nb H : N) (fuel : nat) (start : N) (items : list (N * N)) : list siOp :=
  match fuel, items with
  | O, _ | _, [] => []
  | S k, _ =>
      concat (map (fun l => concat (map (fun h => [putOp nb l.1 l.2 h; mapOp nb (l.1 + start) l.2 h])
                                        (map N.of_nat (seq 0 (N.to_nat H))))) (take 8 items))
      ++ mainN nb H k (start + 8) (drop 8 items)
  end.

(** SimpleIndex.cpp:124-314, [insertItems]. [enc] is AES under the hashing seed.
    [UB]: [% 0], a hash index that reads past the hash block, or an out-of-range store. *)
Definition siInsert (enc : N -> N) (s : SIndex) (xs : list N) : outcome SIndex :=
  let items := imap (fun i x => (N.of_nat i, N.lxor (enc x) x)) xs in
  if (siNumBins s =? 0) || (5 <? siH s) then UB
  else
    match siRun s (if siH s =? 3 then main3 (siNumBins s) (length xs / 8) items
                   else mainN (siNumBins s) (siH s) (length xs) 0 items) with
    | None => UB
    | Some s' => Done s'
    end.
