(** Model of a complete run of PRTY with the smallest communication, libPSI/PSI/Prty/PrtyReceiver.cpp ("Receiver") and PrtySender.cpp ("Sender"), the
    functions [outputBestComm], from the items to [mIntersection].

    The bins, the polynomials and the masks are those of [output] (Prty_Model; Receiver:306-465 and Sender:373-590 repeat its code); the masks then travel as
    differences of sorted masks (PrtyDiff_Model). The member [simple.mAesHasher] of Sender:530 does not exist in SimpleIndex; it is taken to have the key of the
    receiver's [mBalance.mAesHasher]. The product [mTheirInputSize * mMyInputSize] (Receiver:314, Sender:383) is that of the integers. The pushes of the two
    threads to [mIntersection] are put one after the other (Collect_Model: any order, under the lock). *)
From Verif Require Import Base Balanced_Model Prty_Model PrtyDiff_Model BigRun_Model.

(** The arbitrary parts of a run, for each hash number: the order of the sender's masks after [permute], the threads and the sort (Sender:541-551, 649), the
    memory behind the message, and what is in the blocks that are not initialised (Receiver:509-512). *)
Record bestEnv := mkBestEnv { bSort : N -> list N -> list N; bMem : N -> nat -> N; bG1 : N -> N; bG2 : N -> N }.

(** Receiver:327-329, 449-457, [localMasks[h]]; [es] in the order of the insertions. *)
Definition bestMap (es : list entry) (h : N) : list (N * nat) :=
  emplace32 (map snd (filter (fun e : entry => e.1 = h) es)) [].
(** Sender:645-713 ([sendingMasks]) and Receiver:498-577 ([receivingMasks]) for hash number [h]; [ms]: [globalHash[h]] in the order of the items. *)
Definition bestHash (e : bestEnv) (hb bb : nat) (es : list entry) (ms : list N) (h : N) : outcome (list nat) :=
  match sendBest hb bb (bSort e h ms) with
  | Done buf =>
      match decode (length buf) hb bb (peekMem (around buf (bMem e h))) (bG1 e h) (bG2 e h) with
      | Done vs => Done (lookups (bestMap es h) vs)
      | _ => UB
      end
  | _ => UB
  end.

(** The run: [R] the receiver's items, [S] the sender's; [lo]: the order in which the threads insert into the maps. A bin with two equal points: the
    interpolation throws. Receiver:585-601, Sender:716-735: both hash numbers. *)
Definition bestRun (P : prty) (ordB : nat -> list nat -> list nat) (enc : N -> N) (rs : list N) (lo : list entry -> list entry) (e : bestEnv) (R S : list N) : outcome (list nat) :=
  let F := fieldSizeOf (N.of_nat (length R)) in
  match numBinsOf (N.of_nat (length R)) 40 1, balanced ordB enc 40 1 R rs with
  | Some m, Done bins =>
      if forallb (fun bin => bool_decide (NoDup (binBlks R bin))) bins then
        let pols := map (fun bin => interp P (binPoints P F (binBlks R bin))) bins in
        match localEntries P F R bins with
        | Some es =>
            let gh := sendHashes P F enc m (fun b => nth b pols (interp P [])) S in
            let hb := hBytes (N.of_nat (length R)) in let bb := bBytes (N.of_nat (length R)) (N.of_nat (length S)) in
            match bestHash e hb bb (lo es) (gh 0) 0, bestHash e hb bb (lo es) (gh 1) 1 with
            | Done l0, Done l1 => Done (l0 ++ l1)
            | _, _ => UB
            end
        | None => UB
        end
      else Thrown []
  | _, Thrown _ | _, UB | None, _ => UB
  | _, OutOfFuel => OutOfFuel
  end.
