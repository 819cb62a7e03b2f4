(** The complete PIR-PSI protocol: table of the server, retrieval and final comparison by the KKRT protocol
    (libPSI/PSI/Drrn/DrrnPsiServer.cpp, DrrnPsiClient.cpp). Times and console output are not modelled. *)
From Coq Require Import QArith.
From Verif Require Import Base CuckooIndex_Model CuckooParams_Model Bgi_Model Drrn_Model Kkrt_Model.
Local Open Scope N_scope.

(** CuckooIndex2.h:12-22: the selected parameters as the index stores them. *)
Definition indexParams (s : Selected) : CuckooParam := mkParam (N.to_nat (sStash s)) (selNumBins s) (sHashes s) (N.to_nat (sN s)).

(** DrrnPsiServer.cpp:105-127 ([setInputs]): check of the number of hash functions, check that the index is unused,
    selection of parameters (stash 0) and insertion. [enc]: AES under the hashing seed; [log2d], [sec], [fuel]: see
    [selectParams]. [Thrown]: one of the exceptions. The array of items by slot (lines 118-137) is [tableOf]. *)
Definition setInputs (log2d : N -> Q) (sec : N -> N -> Z -> Q) (fuel : nat) (enc : N -> N) (c : Cuckoo) (inputs : list N) (numHash ssp : N)
    : outcome Cuckoo :=
  if negb (numHash =? 2) && negb (numHash =? 3) then Thrown c
  else if (0 <? length (cBins c))%nat then Thrown c
  else match selectParams log2d sec fuel (N.of_nat (length inputs)) ssp 0 numHash with
       | Done (Some s) =>
           match init (indexParams s) c with
           | Done c0 => insertItems enc c0 inputs 0
           | r => r
           end
       | Done None => OutOfFuel
       | Thrown _ => Thrown c
       | UB => UB
       | OutOfFuel => OutOfFuel
       end.

(** The run up to the final comparison (DrrnPsiClient.cpp:43-230, DrrnPsiServer.cpp:150-453): the client's masked items
    with the positions of the items they belong to, and the list server 0 obtains. The parts are those of [drrn]. *)
Definition drrnParts (p : dparams) (enc : N -> N) (aes : bool -> N -> N) (prng : N -> N * N) (c : dchoices) (serverSet bins inputs : list N)
    : option (list (nat * N) * list N) :=
  let P := permSize p in
  let r := maskList (cMask c) P 0 in
  let piS1 := maskList (cMask c) P 1 in
  let s := maskList (cMask c) P 2 in
  match clientLayout p enc aes prng c inputs, tableOf bins serverSet with
  | Some l, Some data =>
      match clientPerm (piOf p l) (cPi1 c) piS1 s, sigmaMasks 0 (cSigmas c) r with
      | Some (pi0, piS0), Some r' =>
          match maskMessage (cPi1 c) r' s,
                serverShares p aes (map (map qK0) l) data (cOrder0 c), serverShares p aes (map (map qK1) l) data (cOrder1 c) with
          | Some rs, Some sh0, Some sh1 =>
              match server0Input sh0 (server1Message sh1 piS1) rs pi0 piS0 with
              | Some final => Some (omap qReal (concat l), final)
              | None => None
              end
          | _, _, _ => None
          end
      | _, _ => None
      end
  | _, _ => None
  end.

(** The final comparison as set up by both [init]s (Client:36-40, Server:38-45): server 0 holds [mBinSize * mNumSimpleBins *
    mBigBlockSize] values, the client one per query. *)
Record finalRun := mkFinal {
  fF : N -> N -> N;            (* the OPRF by bin *)
  fEnc : N -> N -> N;          (* AES under the KKRT hashing seed *)
  fSeed : N;
  fJunk : nat -> nat -> N;     (* random bytes of repeated bins *)
  fMaskSize : N;
  fParam : CuckooParam;        (* parameters of the receiver's table *)
  fLimit : nat;                (* reinsertion limit *)
  fPm : list nat; fIv : list nat;   (* permutation of the KKRT sender and its inverse *)
  fSched : list bool }.        (* schedule of the KKRT sender *)

(** Client:238-244: [mPsi.sendInput] against server 0, then the reported items by [inputMap] (an absent key reads 0; the result is
    a set). [None] inside [Done]: the sender has not finished under the given schedule. *)
Definition finalOut (k : finalRun) (p : dparams) (reals : list (nat * N)) (final : list N) : outcome (option (list nat)) :=
  match recvInit (fParam k) (mkKReceiver (constructed (fLimit k)) []) with
  | Done o =>
      match senderInput (fF k) (fEnc k) (fSeed k) (fJunk k) (fMaskSize k) (pNumBins (fParam k)) (fPm k) (fIv k) (permSize p) final (fSched k) with
      | Done (Some (_, Sent msgs)) =>
          match receiverInput (fF k) (fEnc k) (fSeed k) (fMaskSize k) (permSize p) (dN p * dH p) o (map snd reals) msgs with
          | Done (o', _) => Done (Some (remove_dups (map (fun n => match reals !! N.to_nat n with Some (i, _) => i | None => 0%nat end) (krIntersection o'))))
          | Thrown _ => Thrown None
          | UB => UB
          | OutOfFuel => OutOfFuel
          end
      | Done _ => Done None
      | Thrown _ => Thrown None
      | UB => UB
      | OutOfFuel => OutOfFuel
      end
  | Thrown _ => Thrown None
  | UB => UB
  | OutOfFuel => OutOfFuel
  end.
