(** Model of the balanced allocation, libPSI/Tools/BalancedIndex.cpp ("Balanced").

    The block cipher is an arbitrary function. [rand()] reads from a list of numbers; an exhausted list is [OutOfFuel]. The iteration order of
    [std::unordered_map] is an arbitrary function [ord]. Counters are unbounded. [print] and [check] (console output) are left out. *)
From Verif Require Import Base.

(** Balanced.h:15-19, an entry: hash number and item index. *)
Definition bitem : Type := N * nat.
(** Balanced.h:21-29 without the output vectors: [values], [lightBins], [cnt]. *)
Record bbin := mkBBin { bVals : list (nat * list bitem); bLight : list nat; bCnt : N }.

(** Balanced:43, the number of bins; [None]: division by zero. The difference wraps. *)
Definition numBinsOf (n maxBin dummies : N) : option N :=
  let d := (maxBin + two64 - dummies) mod two64 in if d =? 0 then None else Some (1 + n / d).
(** Balanced:48 on a new object. *)
Definition newBins (m : nat) : list bbin := replicate m (mkBBin [] [] 0).

(** Balanced:70-73, the two bins of an item. *)
Definition binsOf (enc : N -> N) (m x : N) : nat * nat :=
  (N.to_nat (enc x mod two64 mod m), N.to_nat (N.shiftr (enc x) 64 mod two64 mod m)).

(** [values.find(k)], and the insertion of Balanced:77-82, 88-93, 162-174. *)
Fixpoint findVal (k : nat) (vs : list (nat * list bitem)) : option (list bitem) :=
  match vs with [] => None | (k', l) :: vs' => if (k' =? k)%nat then Some l else findVal k vs' end.
(** BalancedIndex.cpp:77-82, 88-93, 162-174: the item is appended to the
    entry [k], which is made if there is none. *)
Fixpoint addVal (k : nat) (it : bitem) (vs : list (nat * list bitem)) : list (nat * list bitem) :=
  match vs with [] => [(k, [it])] | (k', l) :: vs' => if (k' =? k)%nat then (k', l ++ [it]) :: vs' else (k', l) :: addVal k it vs' end.
(** BalancedIndex.cpp:152: [curSubBin->second] after an erasure; the entry
    stays, even if it is empty. *)
Fixpoint setVal (k : nat) (l : list bitem) (vs : list (nat * list bitem)) : list (nat * list bitem) :=
  match vs with [] => [] | (k', l') :: vs' => if (k' =? k)%nat then (k', l) :: vs' else (k', l') :: setVal k l vs' end.

(** Balanced:75-96, one item. [None]: a bin out of range. *)
Definition place (bins : list bbin) (b1 b2 idx : nat) : option (list bbin) :=
  match bins !! b1, bins !! b2 with
  | Some B1, Some B2 =>
      if bCnt B1 <? bCnt B2 then Some (<[b1 := mkBBin (addVal b2 (0, idx) (bVals B1)) (bLight B1) (bCnt B1 + 1)]> bins)
      else Some (<[b2 := mkBBin (addVal b1 (1, idx) (bVals B2)) (bLight B2) (bCnt B2 + 1)]> bins)
  | _, _ => None
  end.
(** Balanced:68-98. *)
Fixpoint firstPass (cands : list (nat * nat)) (idx : nat) (bins : list bbin) : option (list bbin) :=
  match cands with
  | [] => Some bins
  | (b1, b2) :: cands' => match place bins b1 b2 idx with Some bins' => firstPass cands' (S idx) bins' | None => None end
  end.

(** Balanced:102-112. [ord b]: the order in which the map of bin [b] is visited. *)
Definition cntOf (bins : list bbin) (b : nat) : N := match bins !! b with Some B => bCnt B | None => 0 end.
(** BalancedIndex.cpp:102-107: the light neighbours of each bin. *)
Definition scanLight (ord : nat -> list nat -> list nat) (maxBin : N) (bins : list bbin) : list bbin :=
  imap (fun b B => mkBBin (bVals B) (bLight B ++ filter (fun k => cntOf bins k < maxBin) (ord b (map fst (bVals B)))) (bCnt B)) bins.
(** BalancedIndex.cpp:110-111: [heavyBins]. *)
Definition scanHeavy (maxBin : N) (bins : list bbin) : list nat := filter (fun b => maxBin < cntOf bins b) (seq 0 (length bins)).

(** [rand() % n] with [n > 0]. BalancedIndex.cpp:124, 131, 140, 148. The
    list holds the values that [rand()] returns. *)
Definition draw (n : nat) (rs : list N) : option (nat * list N) :=
  match rs with [] => None | r :: rs' => Some (N.to_nat (r mod N.of_nat n), rs') end.

(** [erase(begin() + i)], and Balanced:157-158 ([find] and [erase] of the first occurrence). *)
Definition eraseAt {A} (i : nat) (l : list A) : list A := take i l ++ drop (S i) l.
(** BalancedIndex.cpp:157-158: [find] and [erase] in [heavyBins]. *)
Fixpoint eraseFirst (b : nat) (l : list nat) : list nat :=
  match l with [] => [] | x :: l' => if (x =? b)%nat then l' else x :: eraseFirst b l' end.

(** Balanced:150-183, item [j] of the entries of [b1] for [b2] moves to [b2]; [i2]: the position of [b2] in the light bins of [b1]. *)
Definition moveItem (maxBin : N) (b1 b2 i2 j : nat) (sub : list bitem) (it : bitem) (bins : list bbin) (heavy : list nat)
    : option (list bbin * list nat) :=
  match bins !! b1, bins !! b2 with
  | Some B1, Some B2 =>
      let c1 := bCnt B1 - 1 in
      let heavy1 := if c1 <? maxBin then eraseFirst b1 heavy else heavy in
      let light2 := match findVal b1 (bVals B2) with
                    | Some _ => if c1 <? maxBin then bLight B2 ++ [b1] else bLight B2
                    | None => bLight B2 ++ [b1]
                    end in
      let c2 := bCnt B2 + 1 in
      let over := maxBin <? c2 in
      Some (<[b2 := mkBBin (addVal b1 it (bVals B2)) light2 c2]>
              (<[b1 := mkBBin (setVal b2 (eraseAt j sub) (bVals B1)) (if over then eraseAt i2 (bLight B1) else bLight B1) c1]> bins),
            if over then heavy1 ++ [b2] else heavy1)
  | _, _ => None
  end.

(** Balanced:124-188, one iteration. [UB]: an access out of range, or a light bin without entries in the map. *)
Definition balanceStep (maxBin : N) (bins : list bbin) (heavy : list nat) (rs : list N) : outcome (list bbin * list nat * list N) :=
  match draw (length heavy) rs with
  | None => OutOfFuel
  | Some (h, rs1) =>
      match heavy !! h with
      | None => UB
      | Some b1 =>
          match bins !! b1 with
          | None => UB
          | Some B1 =>
              match bLight B1 with
              | [] => Done (bins, heavy, rs1)
              | _ :: _ =>
                  match draw (length (bLight B1)) rs1 with
                  | None => OutOfFuel
                  | Some (i2, rs2) =>
                      match bLight B1 !! i2 with
                      | None => UB
                      | Some b2 =>
                          match bins !! b2 with
                          | None => UB
                          | Some B2 =>
                              if bCnt B2 <? bCnt B1 then
                                match draw 2 rs2 with
                                | None => OutOfFuel
                                | Some (rB, rs3) =>
                                    if (rB =? 1)%nat || negb (bCnt B2 + 1 =? bCnt B1) then
                                      match findVal b2 (bVals B1) with
                                      | None => UB
                                      | Some [] => Done (bins, heavy, rs3)
                                      | Some sub =>
                                          match draw (length sub) rs3 with
                                          | None => OutOfFuel
                                          | Some (j, rs4) =>
                                              match sub !! j with
                                              | None => UB
                                              | Some it => match moveItem maxBin b1 b2 i2 j sub it bins heavy with
                                                           | Some (bins', heavy') => Done (bins', heavy', rs4)
                                                           | None => UB
                                                           end
                                              end
                                          end
                                      end
                                    else Done (bins, heavy, rs3)
                                end
                              else Done (bins, heavy, rs2)
                          end
                      end
                  end
              end
          end
      end
  end.
(** Balanced:119-190. *)
Fixpoint balance (fuel : nat) (maxBin : N) (bins : list bbin) (heavy : list nat) (rs : list N) : outcome (list bbin) :=
  match heavy with
  | [] => Done bins
  | _ :: _ =>
      match fuel with
      | O => OutOfFuel
      | S f => match balanceStep maxBin bins heavy rs with
               | Done (bins', heavy', rs') => balance f maxBin bins' heavy' rs'
               | Thrown _ => UB
               | UB => UB
               | OutOfFuel => OutOfFuel
               end
      end
  end.

(** Balanced:194-211, the entries of a bin in the order of its vectors [idxs], [hashIdxs]; [blks] is the item, XORed with one for hash number 1. *)
Definition binOut (ord : nat -> list nat -> list nat) (b : nat) (B : bbin) : list bitem :=
  concat (map (fun k => default [] (findVal k (bVals B))) (ord b (map fst (bVals B)))).
(** BalancedIndex.cpp:194-211: [blks]. *)
Definition blkOf (items : list N) (it : bitem) : option N :=
  match items !! it.2 with Some x => Some (if it.1 =? 0 then x else N.lxor x 1) | None => None end.

(** Balanced:59-192, the bins after insertion into the bins [bins]. *)
Definition insertBins (ord : nat -> list nat -> list nat) (maxBin : N) (cands : list (nat * nat)) (rs : list N) (bins : list bbin) : outcome (list bbin) :=
  match firstPass cands 0 bins with
  | None => UB
  | Some bins1 => balance (S (length rs)) maxBin (scanLight ord maxBin bins1) (scanHeavy maxBin bins1) rs
  end.
(** Balanced:59-213. *)
Definition insertItemsFrom (ord : nat -> list nat -> list nat) (maxBin : N) (cands : list (nat * nat)) (rs : list N) (bins : list bbin)
    : outcome (list (list bitem)) :=
  match insertBins ord maxBin cands rs bins with
  | Done bins3 => Done (imap (binOut ord) bins3)
  | Thrown _ => UB
  | UB => UB
  | OutOfFuel => OutOfFuel
  end.
(** [init] (Balanced:39-49) and [insertItems] on a new object. *)
Definition balanced (ord : nat -> list nat -> list nat) (enc : N -> N) (maxBin dummies : N) (items : list N) (rs : list N)
    : outcome (list (list bitem)) :=
  match numBinsOf (N.of_nat (length items)) maxBin dummies with
  | None => UB
  | Some m => insertItemsFrom ord maxBin (map (binsOf enc m) items) rs (newBins (N.to_nat m))
  end.

(** Balanced:48 on an object in use: [resize] keeps the bins that fit. *)
Definition resizeBins (m : nat) (bins : list bbin) : list bbin := take m bins ++ newBins (m - length bins).
(** [init] and [insertItems] twice on the same object. The result: the vectors [idxs], [hashIdxs] of each bin, to which Balanced:194-211 appends. *)
Definition balancedTwice (ord : nat -> list nat -> list nat) (enc : N -> N) (maxBin dummies : N) (items1 items2 : list N) (rs1 rs2 : list N)
    : outcome (list (list bitem)) :=
  match numBinsOf (N.of_nat (length items1)) maxBin dummies, numBinsOf (N.of_nat (length items2)) maxBin dummies with
  | Some m1, Some m2 =>
      match insertBins ord maxBin (map (binsOf enc m1) items1) rs1 (newBins (N.to_nat m1)) with
      | Done bins1 =>
          match insertBins ord maxBin (map (binsOf enc m2) items2) rs2 (resizeBins (N.to_nat m2) bins1) with
          | Done bins2 => Done (imap (fun b B => default [] (binOut ord b <$> bins1 !! b) ++ binOut ord b B) bins2)
          | _ => OutOfFuel
          end
      | _ => OutOfFuel
      end
  | _, _ => UB
  end.
