(** The receivers on messages that a sender chose freely. For KKRT ([Kkrt_Model.receiverInput]) and DKT ([Dkt_Model.recvFinish]) the
    receiver is already modelled apart; here are the receivers of ECDH, DCW, RR16 and RR17a alone, made of the same functions as the
    runs of both parties. Simplifications as in the files of the protocols. *)
From Verif Require Import Base Partition_Model Rr17_Model Rr17a_Model.
From Verif Require Ecdh_Model Dcw_Model Rr16_Model.

(** EcdhPsiReceiver.cpp:33-240, second half: [xa] are the points received by the threads (Receiver:115-123, sizes checked), [masks] the masks (Receiver:183-190, sizes
    checked). [n]: number of own items. *)
Definition ecdhReceive {P} (smul : P -> N -> P) (enc : P -> N) (dec : N -> P) (roPoint : N -> N) (T : nat) (b : N) (n : nat) (xa masks : list (list N))
    (sched : list nat) (old : list N) : outcome (list N) :=
  if negb (Ecdh_Model.checked n T xa) || negb (Ecdh_Model.checked n T masks) then Thrown old
  else match Ecdh_Model.interleave sched (map (map (Ecdh_Model.recvBlock smul enc dec roPoint b)) xa) with
       | None => OutOfFuel
       | Some blks => Done (old ++ concat (map (fun t => Ecdh_Model.matchThread (Ecdh_Model.maskBytes n) (foldl Ecdh_Model.mapInsert [] blks)
                                                          (Ecdh_Model.idxRange n T t) (default [] (masks !! t))) (seq 0 T)))
       end.

(** DcwRBfPsiReceiver.cpp:172-232: [theirs] are the blocks received. *)
Definition dcwReceive (aes : N -> N -> N) (prng : N -> nat -> N) (o : Dcw_Model.dcwReceiver) (R theirs : list N) : outcome (list N) :=
  match Dcw_Model.recvFirst aes prng o R with
  | Done (_, m, masks) =>
      if (length theirs =? Dcw_Model.drN o)%nat
      then match Dcw_Model.matchMasks m masks theirs (Dcw_Model.drIntersection o) with Some out => Done out | None => UB end
      else Thrown (Dcw_Model.drIntersection o)
  | Thrown _ => Thrown (Dcw_Model.drIntersection o)
  | UB => UB
  | OutOfFuel => OutOfFuel
  end.

(** Rr16: AknBfMPsiReceiver.cpp:98-401: [theirs] are the blocks received by the threads; any number is accepted ([recv] into a vector, :371-372). *)
Definition rr16Receive (aes : N -> N -> N) (ro : N -> N -> N) (seed : N) (m nh T n : nat) (total : N) (zeros ones msgs R : list N)
    (mergeOrd : list nat) (theirs : list (list N)) (outOrd : list nat) (old : list N) : outcome (list N) :=
  match Rr16_Model.recvFirst aes ro seed m nh T n total zeros ones msgs R mergeOrd with
  | Done (_, mp) => Done (Rr16_Model.recvSecond mp theirs outOrd old)
  | Thrown _ => Thrown old
  | UB => UB
  | OutOfFuel => OutOfFuel
  end.

(** Rr17aMPsiReceiver.cpp:321-625: [chan t] are the masks received on channel [t], in the order of the loop :581-609. *)
Definition rr17aReceive (P : params) (rd : rand) (R : list N) (chan : nat -> list N) (old : list N) : outcome (list N) :=
  let n := pN P in
  if negb (length R =? n)%nat then Thrown old
  else if 16 <? pMask P then Thrown old
  else match mkBins P R (rOrdR rd) with
  | None => UB
  | Some binsR =>
      match mapM (fun t => recvAssign (pCap P) (rDraw rd) binsR (placesOf (pCap P) (pNb P) (pT P) t) (seq 0 (pCap P))) (seq 0 (pT P)) with
      | None => UB
      | Some asR =>
          let inpR := map (nco P) R in
          let masksR := threadMasks (pEncR P) inpR asR (replicate n 0) in
          Done (old ++ concat (map (fun t => omap (findMask P (recvTable (recvEntries P inpR masksR binsR t))) (chan t)) (rOut rd)))
      end
  end.
