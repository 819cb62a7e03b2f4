(** The PIR-PSI client with freely chosen messages of server 0 in the final comparison. libPSI/PSI/Drrn/DrrnPsiClient.cpp ("Client"). *)
From Verif Require Import Base CuckooIndex_Model Kkrt_Model Drrn_Model DrrnFull_Model.

(** Client:43-246: the queries and masked items (Client:45-201), then [mPsi.sendInput] on [msgs], the messages with masks of the final comparison (Client:238),
    and [inputMap] on its result (Client:240-244; an absent key reads 0; the result is a set). [mPsi] is as [init] leaves a new object (Client:36-40).
    Simplification: an error thrown before the final comparison leaves nothing behind and is not told apart from a failing [inputs] check. *)
Definition clientOut (k : finalRun) (p : dparams) (enc : N -> N) (aes : bool -> N -> N) (prng : N -> N * N) (c : dchoices) (inputs : list N)
    (msgs : list (list N)) : outcome (list nat) :=
  match clientLayout p enc aes prng c inputs with
  | Some l =>
      let reals := omap qReal (concat l) in
      match recvInit (fParam k) (mkKReceiver (constructed (fLimit k)) []) with
      | Done o =>
          match receiverInput (fF k) (fEnc k) (fSeed k) (fMaskSize k) (permSize p) (dN p * dH p) o (map snd reals) msgs with
          | Done (o', _) => Done (remove_dups (map (fun n => match reals !! N.to_nat n with Some (i, _) => i | None => 0%nat end) (krIntersection o')))
          | Thrown _ => Thrown []
          | UB => UB
          | OutOfFuel => OutOfFuel
          end
      | Thrown _ => Thrown []
      | UB => UB
      | OutOfFuel => OutOfFuel
      end
  | None => Thrown []
  end.

(** ** Server 0 with freely chosen messages, libPSI/PSI/Drrn/DrrnPsiServer.cpp ("Server") *)

(** Server:434-438: [mPi1SigmaRS[pi0[i]] ^ piS0[i]] for [cnt] positions from [i] on; [operator[]] of a vector does not check its index. *)
Fixpoint readMasks (rs : list N) (pi0 : list nat) (piS0 : list N) (i cnt : nat) : outcome (list N) :=
  match cnt with
  | O => Done []
  | S cnt' =>
      match pi0 !! i with
      | Some q =>
          match rs !! q, piS0 !! i with
          | Some v, Some w => match readMasks rs pi0 piS0 (S i) cnt' with Done l => Done (N.lxor v w :: l) | _ => UB end
          | _, _ => UB
          end
      | None => UB
      end
  end.
(** Server:447-453: [shares[i] ^ piSigmaR0[i] ^ piSigmaRV1[i]]; [a]: [piSigmaR0] from position [i] on, as long as [shares]. *)
Fixpoint addShares (shares a : list N) (msg1 : list N) (i : nat) : outcome (list N) :=
  match shares, a with
  | [], _ => Done []
  | s :: shares', v :: a' =>
      match msg1 !! i with Some m => match addShares shares' a' msg1 (S i) with Done l => Done (N.lxor (N.lxor s v) m :: l) | _ => UB end | None => UB end
  | _ :: _, [] => UB
  end.
(** Server:426-453. [pi0Msg]: the positions of the client, received into a buffer of [shares.size()] entries (Server:426, 428: a message of another size makes [recv]
    throw). [piS0], [msg1], [rs]: the vectors of the client (Server:429), of server 1 (Server:441) and of server 1 in [init] (Server:47), each received into a vector
    that takes the size of the message (cryptoTools, taken as documented). *)
Definition server0Combine (shares : list N) (pi0Msg : list nat) (piS0 rs msg1 : list N) : outcome (list N) :=
  if negb (length pi0Msg =? length shares)%nat then Thrown []
  else match readMasks rs pi0Msg piS0 0 (length shares) with
       | Done a => addShares shares a msg1 0
       | _ => UB
       end.
