(** Model of a receiver object that is used for several runs: [init] and [sendInput] in turn. *)
From Verif Require Import Base Drrn_Model.
From Verif Require Rr16_Model Rr17a_Model Rr17b_Model Grr18_Model Ecdh_Model Dkt_Model.

(** A run is given by what [sendInput] makes of [mIntersection]; [init] by
    what it makes of it. A run that fails ends the history. The calls of
    [init] and [sendInput] on one object: Rr17aMPsiReceiver.cpp:45-648 and
    the other receivers. *)
Fixpoint history (init : list N -> list N) (runs : list (list N -> outcome (list N))) (old : list N) : outcome (list N) :=
  match runs with
  | [] => Done old
  | run :: runs' =>
      match run (init old) with
      | Done out => history init runs' out
      | Thrown out => Thrown out
      | UB => UB
      | OutOfFuel => OutOfFuel
      end
  end.

(** [init] of the four protocols that never clear [mIntersection]: Rr17aMPsiReceiver.cpp:45-187, Rr17bMPsiReceiver.cpp:48-190,
    Grr18MPsiReceiver.cpp:56-203, AknBfMPsiReceiver.cpp:28-96. *)
Definition initKeeps (old : list N) : list N := old.
(** EcdhPsiReceiver.cpp:30, DktMPsiReceiver.cpp:32: [mIntersection.clear()]. *)
Definition initClears (old : list N) : list N := [].

(** [sendInput] of each protocol on [mIntersection] (the models of the
    protocols, without the other results). The part of the result that is
    [mIntersection], for example Rr17aMPsiReceiver.cpp:616-630. *)
Definition outOnly {A} (f : A -> list N) (o : outcome A) : outcome (list N) :=
  match o with Done a => Done (f a) | Thrown a => Thrown (f a) | UB => UB | OutOfFuel => OutOfFuel end.
(** Rr17aMPsiReceiver.cpp:272-648. *)
Definition useA P rd R S (old : list N) : outcome (list N) := outOnly Rr17a_Model.resOut (Rr17a_Model.rr17aRun P rd R S old).
(** Rr17bMPsiReceiver.cpp:226-534. *)
Definition useB ss P rd R S (old : list N) : outcome (list N) := Rr17b_Model.rr17bRun ss P rd R S old.
(** Grr18MPsiReceiver.cpp:207-682. *)
Definition useG P rd ownR lS R S (old : list N) : outcome (list N) := outOnly Rr17a_Model.resOut (Grr18_Model.grrRun P rd ownR lS R S old).
(** AknBfMPsiReceiver.cpp:98-426. *)
Definition use16 aes ro seed m nh T n total zeros ones rmsgs smsgs sampled R S mergeOrd outOrd (old : list N) : outcome (list N) :=
  Rr16_Model.rr16Run aes ro seed m nh T n total zeros ones rmsgs smsgs sampled R S mergeOrd outOrd old.
(** EcdhPsiReceiver.cpp:34-249. *)
Definition useE {P : Type} (smul : P -> N -> P) pt enc dec roItem roPoint hashSize T a b R S sched (old : list N) : outcome (list N) :=
  Ecdh_Model.ecdhRun smul pt enc dec roItem roPoint hashSize T a b R S sched old.
(** DktMPsiReceiver.cpp:36-558. *)
Definition useD D r s T R S (old : list N) : outcome (list N) := outOnly fst (Dkt_Model.dktRun D r s T R S old).

(** ** PIR-PSI, libPSI/PSI/Drrn/DrrnPsiClient.cpp ("Client") *)

(** The client object: [mPsi.mIntersection], which KkrtPsiReceiver only appends to (KkrtPsiReceiver.cpp:231, no [clear] in its [init]), and
    [mIntersection], a set (DrrnPsiClient.h:48). *)
Record dclient := mkDclient { dcPsi : list nat; dcOut : list nat }.

(** Positions of the client's masked values that the final protocol matches in this run (Client:166, 177-181, 238): numbers of the real queries. *)
Definition matched (final : list N) (reals : list (nat * N)) : list nat :=
  omap (fun k => match reals !! k with Some (_, s) => if decide (s ∈ final) then Some k else None | None => None end) (seq 0 (length reals)).
(** Client:240-244; [inputMap[...]] of an absent key is 0. The map is local to the run (Client:118, 177). *)
Definition collectOut (cl : dclient) (reals : list (nat * N)) (final : list N) : dclient :=
  let psi := dcPsi cl ++ matched final reals in
  mkDclient psi (remove_dups (dcOut cl ++ map (fun k => match reals !! k with Some (i, _) => i | None => 0%nat end) psi)).

(** [recv] of a client object (Client:43-246) with the two servers; up to the final protocol as in [Drrn_Model.drrn]. [init] (Client:11-41) changes
    neither of the two lists. *)
Definition drrnUse (cl : dclient) (p : dparams) (enc : N -> N) (aes : bool -> N -> N) (prng : N -> N * N) (c : dchoices) (serverSet bins inputs : list N)
    : option dclient :=
  let P := permSize p in
  let r := maskList (cMask c) P 0 in
  let piS1 := maskList (cMask c) P 1 in
  let s := maskList (cMask c) P 2 in
  match clientLayout p enc aes prng c inputs, tableOf bins serverSet with
  | Some l, Some data =>
      match clientPerm (piOf p l) (cPi1 c) piS1 s, sigmaMasks 0 (cSigmas c) r with
      | Some (pi0, piS0), Some r' =>
          match maskMessage (cPi1 c) r' s,
                serverShares p aes (map (map qK0) l) data (cOrder0 c), serverShares p aes (map (map qK1) l) data (cOrder1 c) with
          | Some rs, Some sh0, Some sh1 =>
              match server0Input sh0 (server1Message sh1 piS1) rs pi0 piS0 with
              | Some final => Some (collectOut cl (omap qReal (concat l)) final)
              | None => None
              end
          | _, _, _ => None
          end
      | _, _ => None
      end
  | _, _ => None
  end.
