(** The whole of [doFilePSI], libPSI/Tools/fileBased.cpp:162-303, for two parties: from the two input files to the contents of the receiver's output file.

    Simplifications for the whole file.
    - Both parties are given the same -ssp. The channel is reliable.
    - If a party gives up (exception caught at :294), there is no output: [Thrown]. If both or none of the parties are the network server, both wait for a
      connection for ever (:200-206): [OutOfFuel].
    - Parties with different protocol flags: no output is modelled ([Thrown]). *)
From Verif Require Import Base File_Model CuckooIndex_Model Kkrt_Model Masks_Model Ecdh_Model Rr17_Model Rr17a_Model.

(** [run]: the [init] and [sendInput] calls of both parties (:219-288): protocol, (sender size, receiver size) as given to the sender and as given to the receiver,
    the sender's set, the receiver's set; the result is [mIntersection]. *)
Definition filePsi (run : protocol -> N * N -> N * N -> list N -> list N -> outcome (list N)) (ro : list N -> N) (p1 p2 : nat -> N)
    (c1 c2 : command) (f1 f2 : list N) : outcome (list N) :=
  match announced ro c1 f1, announced ro c2 f2 with
  | Some n1, Some n2 =>
      match startup ro p1 c1 f1 n2, startup ro p2 c2 f2 n1 with
      | Some (pr1, a1, b1, s1, v1), Some (pr2, a2, b2, s2, v2) =>
          if Bool.eqb v1 v2 then OutOfFuel
          else match pr1, pr2 with
               | Kkrt, Kkrt | Rr17a, Rr17a | Ecdh, Ecdh =>
                   match run pr1 (a1, b1) (a2, b2) s1 s2 with
                   | Done l => Done (writeOutput (chooseType c2) l)
                   | Thrown _ => Thrown []
                   | UB => UB
                   | OutOfFuel => OutOfFuel
                   end
               | _, _ => Thrown []
               end
      | _, _ => Thrown []
      end
  | _, _ => Thrown []
  end.

(** What the calls depend on: for KKRT the OPRF, AES under the hashing seed, the junk bytes, the selected cuckoo parameters (a function of the set size, CuckooIndex2.cpp:127-177), the
    limit of reinsertions, the draws of the permutation, the schedule of the sender's threads; for RR17a what [init] leaves for a set size, and the random choices; for ECDH the curve and the scalars. *)
Record world := mkWorld {
  wSsp : N;
  wF : N -> N -> N; wEnc : N -> N -> N; wSeed : N; wJunk : nat -> nat -> N; wSel : N -> CuckooParam; wLim : nat; wRnd : nat -> N; wSched : list bool;
  wInit : nat -> params; wRand : nat -> rand;
  wSmul : N -> N -> N; wPt : N -> N; wRoItem : nat -> N -> N; wRoPoint : N -> N; wHashSize : nat; wA : N; wB : N; wOrder : list nat }.

(** fileBased.cpp:219-236 with KkrtPsiSender.cpp:30-106, 338-504 and KkrtPsiReceiver.cpp:48-245. *)
Definition kkrtFiles (w : world) (sS sR : N * N) (S R : list N) : outcome (list N) :=
  match kkrtMaskBytes (wSsp w) sS.1 sS.2, kkrtMaskBytes (wSsp w) sR.1 sR.2 with
  | Done msS, Done msR =>
      match drawPermutation (N.to_nat sS.1) (wRnd w) with
      | Done (Some (pm, iv)) =>
          match recvInit (wSel w (N.max 200 sR.2)) (mkKReceiver (constructed (wLim w)) []) with
          | Done o =>
              match senderInput (wF w) (wEnc w) (wSeed w) (wJunk w) msS (pNumBins (wSel w (N.max 200 sS.2))) pm iv (N.to_nat sS.1) S (wSched w) with
              | Done (Some (_, Sent msgs)) =>
                  match receiverInput (wF w) (wEnc w) (wSeed w) msR (N.to_nat sR.1) (N.to_nat sR.2) o R msgs with
                  | Done (o', _) => Done (krIntersection o')
                  | Thrown _ => Thrown []
                  | UB => UB
                  | OutOfFuel => OutOfFuel
                  end
              | Done (Some (_, Looping _ _ _ _)) => OutOfFuel   (* [wSched] is too short *)
              | Done None | Thrown _ => Thrown []
              | UB => UB
              | OutOfFuel => OutOfFuel
              end
          | Thrown _ => Thrown []
          | UB => UB
          | OutOfFuel => OutOfFuel
          end
      | Done None | Thrown _ => Thrown []
      | UB => UB
      | OutOfFuel => OutOfFuel
      end
  | Thrown _, _ | _, Thrown _ => Thrown []
  | _, _ => UB
  end.

(** fileBased.cpp:243-262. Both [init] calls get the size of the party's own set; the sizes agree after the padding. *)
Definition rr17aFiles (w : world) (sS sR : N * N) (S R : list N) : outcome (list N) :=
  if negb (sS.1 =? sR.2) then Thrown []   (* the sizes of messages differ *)
  else match rr17aRun (wInit w (N.to_nat sR.2)) (wRand w (N.to_nat sR.2)) R S [] with
       | Done r => Done (resOut r)
       | Thrown _ => Thrown []
       | UB => UB
       | OutOfFuel => OutOfFuel
       end.

(** fileBased.cpp:269-286: one channel. Points are given by their bytes ([enc] and [dec] the identity). *)
Definition ecdhFiles (w : world) (S R : list N) : outcome (list N) :=
  ecdhRun (wSmul w) (wPt w) id id (wRoItem w) (wRoPoint w) (wHashSize w) 1 (wA w) (wB w) R S (wOrder w) (ecdhInit []).

(** fileBased.cpp:217-287: the three branches. *)
Definition runFiles (w : world) (pr : protocol) (sS sR : N * N) (S R : list N) : outcome (list N) :=
  match pr with
  | Kkrt => kkrtFiles w sS sR S R
  | Rr17a => rr17aFiles w sS sR S R
  | Ecdh => ecdhFiles w S R
  end.
