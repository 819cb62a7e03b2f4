(** The receivers of RR17b and GRR18 alone, on messages that a sender chose freely (as Foreign_Model.v for the other protocols). Made of the functions of the runs of
    both parties; simplifications as in the files of the protocols. *)
From Verif Require Import Base Partition_Model.
From Verif Require Rr17_Model Rr17a_Model Rr17b_Model Grr18_Model.

(** ** RR17b *)

Section Rr17b.
Import Rr17_Model Rr17b_Model.

(** Rr17bMPsiReceiver.cpp:435-501: the messages of one channel, [cs] as expected (first item, item count). A message that does not come or has another size:
    [Thrown] (the thread waits or fails in the network library). *)
Fixpoint scanGiven (try : N -> N -> N -> option nat) (cap : nat) (cs : list (nat * nat)) (msgs : list (list N)) : outcome (list nat) :=
  match cs with
  | [] => Done []
  | c :: cs' =>
      match msgs with
      | [] => Thrown []
      | m :: msgs' =>
          if negb (length m =? c.2 * setSize cap)%nat then Thrown []
          else match scanItems try cap m c.2 0 with
               | Done (_, l) => match scanGiven try cap cs' msgs' with Done l' => Done (l ++ l') | o => o end
               | Thrown (_, l) => Thrown l
               | UB => UB
               | OutOfFuel => OutOfFuel
               end
      end
  end.
(** Rr17bMPsiReceiver.cpp:226-534: [chan t] are the messages of channel [t]. *)
Definition rr17bReceive (sendSize : nat) (P : params) (rd : rand) (R : list N) (chan : nat -> list (list N)) (old : list N) : outcome (list N) :=
  let n := pN P in
  if negb (length R =? n)%nat then Thrown old
  else if 16 <? pMask P then Thrown old
  else match mkBins P R (rOrdR rd) with
    | Some binsR =>
        match mapM (fun t => recvAssign (pCap P) (rDraw rd) binsR (placesOf (pCap P) (pNb P) (pT P) t) (seq 0 (pCap P))) (seq 0 (pT P)) with
        | Some asR =>
            let tab t := rTab rd t (concat (map (fun u => tagEntries P R (default [] (asR !! u)) u) (seen t (rSched rd)))) in
            match collect (map (fun t => scanGiven (tryTag (pCom P) R (tab t)) (pCap P) (channelChunks sendSize n (pT P) t) (chan t)) (rOut rd)) with
            | Done l => Done (old ++ map N.of_nat l)
            | Thrown _ => Thrown old
            | UB => UB
            | OutOfFuel => OutOfFuel
            end
        | None => UB
        end
    | None => UB
    end.
End Rr17b.

(** ** GRR18 *)

Section Grr18.
Import Rr17_Model Rr17a_Model Grr18_Model.

(** Grr18MPsiReceiver.cpp:256, 506: [masks], here as a list of masks ([mN] rows of [mMaxBinSize] masks, one after the other); mask [l] of item [i] is written at
    [i * mMaxBinSize + l], whatever [l] is. [None]: behind the end. *)
Fixpoint storeMasks (bits : N) (es : list (N * (nat * N))) (mem : list N) : option (list N) :=
  match es with
  | [] => Some mem
  | (_, (q, m)) :: es' => if (q <? length mem)%nat then storeMasks bits es' (<[q := m mod 2 ^ bits]> mem) else None
  end.
(** Grr18MPsiReceiver.cpp:613-634: the key leads to a place in [masks], which is compared. *)
Definition lookMask (P : params) (mem : list N) (tab : list (N * (nat * N))) (m : N) : option N :=
  match list_find (fun e => e.1 = m mod 2 ^ keyBits P) tab with
  | Some (_, (_, (q, _))) => if default 0 (mem !! q) =? m then Some (N.of_nat (q / pCap P)) else None
  | None => None
  end.
(** Grr18MPsiReceiver.cpp:207-682: [theirs] are the loads the sender announced (their sum as announced, :283-290, 423-425), [chan t] the masks received on channel
    [t]. [ownR]: the own loads; [wr]: the order in which the threads write to [masks]. The writes of different threads to the same place (possible if a load
    exceeds [mMaxBinSize]; a data race) are taken in this order. Inserting the empty key 0 is undefined. [theirLoads] is resized to the
    message received (:285), so that :354 reads behind its end if the message is too short. *)
Definition grrReceive (P : params) (rd : grrRand) (wr : list nat) (ownR theirs : list nat) (R : list N) (chan : nat -> list N) (old : list N) : outcome (list N) :=
  let n := pN P in
  let loadsR := recvLoads ownR theirs in
  if negb (length R =? n)%nat then Thrown old
  else if 16 <? pMask P then Thrown old
  else if (length theirs <? pNb P)%nat then UB
  else match mkBins P R (gOrdR rd) with
  | None => UB
  | Some binsR =>
      match mapM (fun t => sendAssign (gShufR rd) binsR (placesL loadsR (pNb P) (pT P) t)) (seq 0 (pT P)) with
      | None => UB
      | Some asR =>
          let inpR := map (nco P) R in
          let masksR := threadMasks (pEncR P) inpR asR (replicate n 0) in
          let blocks := grrBlocks P theirs inpR masksR binsR in
          match storeMasks (8 * pMask P) (concat (concat (map blocks wr))) (replicate (n * pCap P) 0) with
          | None => UB
          | Some mem =>
              let entries := concat (gIns rd (concat (map (fun t => flushes (N.of_nat (pCap P) * 4096) [] (blocks t)) (seq 0 (pT P))))) in
              if existsb (fun e : N * (nat * N) => e.1 =? 0) entries then UB
              else Done (old ++ concat (map (fun t => omap (lookMask P mem (recvTable entries)) (chan t)) (gOut rd)))
          end
      end
  end.
End Grr18.
