(** Model of the RR17b protocol, libPSI/MPSI/Rr17/Rr17b/Rr17bMPsiReceiver.cpp and Rr17bMPsiSender.cpp, [sendInput].

    Simplifications for the whole file.
    - The OTs: [enc t i x] is the encoding of [x] in OT [i] of channel [t], 20 bytes given as tag (first four bytes) and key
      (the other sixteen): an arbitrary function, the same at both parties. The corrections and checks are left out.
    - [com x r] is the hash of item and decommitment value, [RandomOracle::HashSize] = [sizeof(Commit)] = 20 bytes.
    - [ro]: the seeded oracle, [aes]: the keyed AES; both parties hold the same hash seed.
    - Messages arrive complete and in order. [std::terminate] (an exception in a thread) is [Thrown].
    - Threads meet at the barriers of the code. *)
From Verif Require Import Base Partition_Model File_Model File_Spec Rr17_Model.

(** What [init] leaves: hash to a smaller domain?, set size, bin count, bin
    capacity, mask bytes (only checked), channels. What [init] sets,
    Rr17bMPsiReceiver.cpp:61-217, Rr17bMPsiSender.cpp:52-184. *)
Record params := mkParams { pHash : bool; pRo : N -> N; pAes : N -> N; pN : nat; pNb : nat; pCap : nat; pMask : N; pT : nat;
  pEnc : nat -> nat -> N -> N * N; pCom : N -> N -> N }.
(** Steps of thread [t] of both parties. Receiver: [Insert] its last insertion in [tagMap] (Receiver:396), [Correct] its last correction message
    (410), [Lookup] its first lookup (465). Sender: [Corrected] its last correction received (Sender:359), [Barrier] its arrival at
    [encodingsComputedBarrier] (453), [Send] its first message of rows (467). *)
Inductive step := Insert (t : nat) | Correct (t : nat) | Corrected (t : nat) | Barrier (t : nat) | Send (t : nat) | Lookup (t : nat).
Global Instance step_eq : EqDecision step.
Proof. solve_decision. Defined.
(** The threads whose insertions are complete when thread [t] starts its
    lookups. Rr17bMPsiReceiver.cpp:457-497. *)
Fixpoint seen (t : nat) (sched : list step) : list nat :=
  match sched with
  | [] => []
  | Lookup t' :: sched' => if (t' =? t)%nat then [] else seen t sched'
  | Insert u :: sched' => u :: seen t sched'
  | _ :: sched' => seen t sched'
  end.

(** Random choices and schedules: the receiver's draws (bin, item), the sender's item permutation and decommitment values, the orders of bin
    insertions at receiver and sender, the order in which the sender's threads process bins, the order of the steps of all threads, the order of
    equal tags in the multimap, the order in which results are appended.
    Rr17bMPsiReceiver.cpp:226-534, Rr17bMPsiSender.cpp:193-490. *)
Record rand := mkRand { rDraw : nat -> nat -> N; rPerm : list nat; rDec : nat -> N; rOrdR : list nat; rOrdS : list nat;
  rPlaces : list (nat * nat * nat); rSched : list step; rTab : nat -> list (N * (nat * N)) -> list (N * (nat * N)); rOut : list nat }.

(** Receiver:296-338, Sender:286-333: the value whose low bits select the bin, and the OT input. *)
Definition binValue (P : params) (x : N) : N := if pHash P then pRo P x else pAes P x.
(** Rr17bMPsiReceiver.cpp:296-338, Rr17bMPsiSender.cpp:286-333: the OT
    input. *)
Definition otInput (P : params) (x : N) : N := if pHash P then shiftRight (pRo P x) (phase (pN P)) else x.
(** Rr17bMPsiReceiver.cpp:296-338, Rr17bMPsiSender.cpp:286-333: the bin. *)
Definition itemBin (P : params) (x : N) : nat := binOf (pNb P) (binValue P x).
(** Rr17bMPsiReceiver.cpp:296-338, Rr17bMPsiSender.cpp:286-333: all items. *)
Definition mkBins (P : params) (items : list N) (ord : list nat) : option (list (list nat)) :=
  fillBins (pCap P) (map (itemBin P) items) ord (replicate (pNb P) []).

(** ** Receiver: tags *)

(** Receiver:364-397: the entries of thread [t]: tag, item, key. *)
Definition tagEntries (P : params) (R : list N) (assign : list (nat * nat)) (t : nat) : list (N * (nat * N)) :=
  map (fun e : nat * nat => let c := pEnc P t e.2 (otInput P (default 0 (R !! e.1))) in (c.1, (e.1, c.2))) assign.

(** Receiver:465-497: try the entries with this tag in order. *)
Definition tryTag (com : N -> N -> N) (R : list N) (tab : list (N * (nat * N))) (comm tag enc : N) : option nat :=
  match list_find (fun e => e.1 = tag /\ com (default 0 (R !! e.2.1)) (N.lxor e.2.2 enc) = comm) tab with
  | Some (_, e) => Some e.2.1
  | None => None
  end.

(** ** Receiver: scanning a message *)

(** A read of [n] bytes at offset [o]; [None]: outside the buffer. For
    example Rr17bMPsiReceiver.cpp:386-387, 459-460. *)
Definition getLe (msg : list N) (o n : nat) : option N :=
  if (o + n <=? length msg)%nat then Some (leBytes (take n (drop o msg))) else None.
(** Receiver:457-498 from iteration [k] on, [left = cap - k]. Result: [iter] and the match. *)
Fixpoint scanSlots (try : N -> N -> option nat) (msg : list N) (left iter : nat) : outcome (nat * option nat) :=
  match left with
  | O => Done (iter, None)
  | S left' =>
      match getLe msg iter 4, getLe msg (iter + 4) 16 with
      | Some tag, Some enc =>
          let iter := (iter + 20)%nat in
          if (length msg <? iter)%nat then Thrown (iter, None)
          else match try tag enc with
               | Some i => Done ((iter + left' * 20)%nat, Some i)
               | None => scanSlots try msg left' iter
               end
      | _, _ => UB
      end
  end.
(** Receiver:445-499: [count] items from offset [iter] on. Result: [iter] and the matches. *)
Fixpoint scanItems (try : N -> N -> N -> option nat) (cap : nat) (msg : list N) (count iter : nat) : outcome (nat * list nat) :=
  match count with
  | O => Done (iter, [])
  | S count' =>
      match getLe msg iter 20 with
      | None => UB
      | Some comm =>
          match scanSlots (try comm) msg cap (iter + 20) with
          | Done (iter', m) =>
              match scanItems try cap msg count' iter' with
              | Done (iter'', l) => Done (iter'', match m with Some i => i :: l | None => l end)
              | o => o
              end
          | Thrown r => Thrown (r.1, [])
          | UB => UB
          | OutOfFuel => OutOfFuel
          end
      end
  end.

(** ** Sender: the buffer *)

(** Sender:242. *)
Definition setSize (cap : nat) : nat := 20 * cap + 20.
(** Sender:371-428: the bytes of one item in bin with first OT [base] of channel [t]. *)
Definition itemRow (P : params) (dec : nat -> N) (S : list N) (t base j : nat) : list N :=
  let y := default 0 (S !! j) in
  bytesLE 20 (pCom P y (dec j)) ++
  concat (map (fun l => let c := pEnc P t (base + l)%nat (otInput P y) in bytesLE 4 c.1 ++ bytesLE 16 (N.lxor c.2 (dec j))) (seq 0 (pCap P))).
(** Sender:279-280: the bins of thread [t], with the first OT index of each. *)
Definition sendPlacesOf (cap nb T t : nat) : list (nat * nat * nat) :=
  let '(s, e) := ceilSplit (N.of_nat nb) (N.of_nat T) (N.of_nat t) in
  imap (fun k b => (t, b, (k * cap)%nat)) (seq (N.to_nat s) (N.to_nat e - N.to_nat s)).
(** Rr17bMPsiSender.cpp:279-280: all threads. *)
Definition sendPlaces (cap nb T : nat) : list (nat * nat * nat) := concat (map (sendPlacesOf cap nb T) (seq 0 T)).
(** Write each row at [perm[j]]; [None]: outside the buffer.
    Rr17bMPsiSender.cpp:392-427. *)
Fixpoint writeRows (ws : list (nat * list N)) (buf : list (list N)) : option (list (list N)) :=
  match ws with
  | [] => Some buf
  | (p, r) :: ws' => if (p <? length buf)%nat then writeRows ws' (<[p := r]> buf) else None
  end.
(** Rr17bMPsiSender.cpp:350-436: what all threads write and where. *)
Definition sendWrites (P : params) (rd : rand) (S : list N) (bins : list (list nat)) : list (nat * list N) :=
  concat (map (fun pl : nat * nat * nat => let '(t, b, base) := pl in
    map (fun j => (default (pN P) (rPerm rd !! j), itemRow P (rDec rd) S t base j)) (default [] (bins !! b))) (rPlaces rd)).

(** ** Chunks *)

(** Sender:456-466, Receiver:430-442: the messages on channel [t], first item and item count; [sendSize] is 2^14 in the code. *)
Fixpoint chunksOf (sendSize : nat) (fuel i e : nat) : list (nat * nat) :=
  match fuel with
  | O => []
  | S f => if (i <? e)%nat then (i, Nat.min sendSize (e - i)) :: chunksOf sendSize f (i + sendSize) e else []
  end.
(** Rr17bMPsiSender.cpp:456-466, Rr17bMPsiReceiver.cpp:430-442. *)
Definition channelChunks (sendSize n T t : nat) : list (nat * nat) :=
  let '(s, e) := ceilSplit (N.of_nat n) (N.of_nat T) (N.of_nat t) in chunksOf sendSize (N.to_nat e - N.to_nat s) (N.to_nat s) (N.to_nat e).
(** The bytes of a message. Rr17bMPsiSender.cpp:461-467. *)
Definition message (cap : nat) (buf : list N) (c : nat * nat) : list N := take (c.2 * setSize cap) (drop (c.1 * setSize cap) buf).
(** Receiver:435-501. *)
Fixpoint scanMessages (try : N -> N -> N -> option nat) (cap : nat) (buf : list N) (cs : list (nat * nat)) : outcome (list nat) :=
  match cs with
  | [] => Done []
  | c :: cs' =>
      match scanItems try cap (message cap buf c) c.2 0 with
      | Done (_, l) => match scanMessages try cap buf cs' with Done l' => Done (l ++ l') | o => o end
      | Thrown (_, l) => Thrown l
      | UB => UB
      | OutOfFuel => OutOfFuel
      end
  end.

(** ** Run *)

(** Receiver:347-348, 360-411 and Sender:279-280, 350-359: on channel [t] the receiver sends a correction for each slot of its bins and the sender
    waits for one for each slot of its bins. *)
Definition correctionsFit (cap nb T t : nat) : bool := (length (placesOf cap nb T t) =? length (sendPlacesOf cap nb T t))%nat.

(** All threads; a failure of one is a failure of the run.
    Rr17bMPsiReceiver.cpp:502-516. *)
Fixpoint collect (l : list (outcome (list nat))) : outcome (list nat) :=
  match l with
  | [] => Done []
  | Done x :: l' => match collect l' with Done y => Done (x ++ y) | o => o end
  | o :: _ => o
  end.

(** A correction message that does not come or has another size: [Thrown]
    (the thread waits or fails in the network library).
    Rr17bMPsiReceiver.cpp:226-534, Rr17bMPsiSender.cpp:193-490. *)
Definition rr17bRun (sendSize : nat) (P : params) (rd : rand) (R S old : list N) : outcome (list N) :=
  let n := pN P in
  if negb (length R =? n)%nat || negb (length S =? n)%nat then Thrown old
  else if 16 <? pMask P then Thrown old
  else match mkBins P R (rOrdR rd), mkBins P S (rOrdS rd) with
    | Some binsR, Some binsS =>
        if negb (forallb (correctionsFit (pCap P) (pNb P) (pT P)) (seq 0 (pT P))) then Thrown old
        else match mapM (fun t => recvAssign (pCap P) (rDraw rd) binsR (placesOf (pCap P) (pNb P) (pT P) t) (seq 0 (pCap P))) (seq 0 (pT P)) with
        | Some asR =>
            match writeRows (sendWrites P rd S binsS) (replicate n (replicate (setSize (pCap P)) 0)) with
            | Some rows =>
                let tab t := rTab rd t (concat (map (fun u => tagEntries P R (default [] (asR !! u)) u) (seen t (rSched rd)))) in
                match collect (map (fun t => scanMessages (tryTag (pCom P) R (tab t)) (pCap P) (concat rows) (channelChunks sendSize n (pT P) t)) (rOut rd)) with
                | Done l => Done (old ++ map N.of_nat l)
                | Thrown _ => Thrown old
                | UB => UB
                | OutOfFuel => OutOfFuel
                end
            | None => UB
            end
        | None => UB
        end
    | _, _ => UB
    end.
