(** Model of the malicious-secure PSI of De Cristofaro, Kim and Tsudik, libPSI/MPSI/DKT/DktMPsiReceiver.cpp and DktMPsiSender.cpp.

    Simplifications for the whole file.
    - Curve points, scalars and their operations are an arbitrary structure; the byte strings of points and scalars are the points and
      scalars themselves. A random oracle takes the list of updates (points or blocks) to a block and is arbitrary; the program uses the
      same oracle for the items, the output masks ([ro]) and the challenges ([roE]).
    - [point.randomize(seed)] (Receiver:142) and [PRNG p(seed); point.randomize(p)] (Sender:113-114) are the same function [toPt];
      [randomize(seed)] of a scalar is [toSc].
    - The two parties' generators: [g] is the curve's, [gg] the point of [OneBlock] (Receiver:116, Sender:84 overwrite [gg]).
      [ggg] is never assigned and may differ between the parties ([gggR], [gggS]); [ptNew] is the value of a new point.
    - The messages of 64 (the masks: 512) items of a thread are one list per thread, so the size checks compare the totals of a thread;
      a party that would wait for ever or receive a message of another kind ends with [Thrown].
    - An exception in a thread (the program then terminates) is [Thrown]. Order of the threads: the promises leave no freedom
      in the values computed. *)
From Verif Require Import Base Ecdh_Model.

(** The curve operations and the random oracle called in
    DktMPsiReceiver.cpp:88-532 and DktMPsiSender.cpp:68-405. *)
Record dkt := mkDkt {
  pt : Type; sc : Type; ptEq : EqDecision pt;
  padd : pt -> pt -> pt; psub : pt -> pt -> pt; pmul : pt -> sc -> pt;
  sadd : sc -> sc -> sc; ssub : sc -> sc -> sc; smul : sc -> sc -> sc; szero : sc;
  gen : pt; gg : pt; gggR : pt; gggS : pt; ptNew : pt;
  toPt : N -> pt; toSc : N -> sc;
  ro : list (pt + N) -> N; roE : list (pt + N) -> N }.
Global Existing Instance ptEq.

(** Receiver:135-142, Sender:105-114: the point of an item. *)
Definition ptOf (D : dkt) (x : N) : pt D := toPt D (ro D [inr x]).

(** Receiver:144-147: the sum of the points of a thread; without items the new point. *)
Definition sumPts (D : dkt) (l : list (pt D)) : pt D :=
  match l with [] => ptNew D | p :: l' => foldl (padd D) p l' end.

(** A challenge, Receiver:162-170, 226-227, 240-246, 258-260 and 329-337, 346, 363-369, 393-395, Sender:139, 220, 250-262, 275-276,
    293-298: thread 0 hashes the first point, the points of its items and the hashes of the points of the other threads. *)
Definition challenge (D : dkt) (first : pt D) (threads : list (list (pt D))) : sc D :=
  toSc D (roE D (inl first :: map inl (default [] (head threads)) ++ map (fun l => inr (roE D (map inl l))) (tail threads))).

(** The receiver's randomness: [Rc] is the same in all threads (Receiver:48, 152); [sigmaD], [sigmaDs], [Rcs] come from the thread's own
    generator (Receiver:40-42, 153, 210, 215). *)
Record recvRnd (D : dkt) := mkRecvRnd {
  rRc : sc D; rD : nat -> sc D; rDs : nat -> nat -> sc D; rRcs : nat -> nat -> sc D }.
Global Arguments rRc {D}. Global Arguments rD {D}. Global Arguments rDs {D}. Global Arguments rRcs {D}.
(** The sender's secret scalars, the same in all threads (Sender:65-66, 95-96, 174-175). *)
Record sendRnd (D : dkt) := mkSendRnd { sRs : sc D; sR2 : sc D }.
Global Arguments sRs {D}. Global Arguments sR2 {D}.

(** The items of each thread, Receiver:90-91, Sender:70-71. [None]: out of range. *)
Definition threadItems (T : nat) (l : list N) : option (list (list N)) :=
  mapM (fun t => inputsAt l (idxRange (length l) T t)) (seq 0 T).

(** Receiver:200-229: [M], [N], [sigmaB] of item [k] of thread [t]. The program uses [inputPoints.back()] for every item. *)
Definition recvTriple (D : dkt) (r : recvRnd D) (t : nat) (pts : list (pt D)) (k : nat) : pt D * pt D * pt D :=
  let back := default (ptNew D) (last pts) in
  let pchs := psub D (sumPts D pts) back in
  (padd D back (pmul D (gg D) (rRcs r t k)), padd D pchs (pmul D (gggR D) (rRcs r t k)),
   pmul D (padd D (gg D) (gggR D)) (rDs r t k)).
(** All items of thread [t], same lines. *)
Definition recvTriples (D : dkt) (r : recvRnd D) (t : nat) (xs : list N) : list (pt D * pt D * pt D) :=
  map (recvTriple D r t (map (ptOf D) xs)) (seq 0 (length xs)).

(** First message of the receiver: [X], [sigmaA] of thread 0 (Receiver:158-173) and the triples of all threads. *)
Record msg1 (D : dkt) := mkMsg1 { m1X : pt D; m1A : pt D; m1Items : list (list (pt D * pt D * pt D)) }.
Global Arguments m1X {D}. Global Arguments m1A {D}. Global Arguments m1Items {D}.
(** The triples: Receiver:200-229. *)
Definition recvFirst (D : dkt) (r : recvRnd D) (items : list (list N)) : msg1 D :=
  mkMsg1 D (padd D (sumPts D (map (ptOf D) (default [] (head items)))) (pmul D (gen D) (rRc r))) (pmul D (gen D) (rD r 0%nat))
    (imap (recvTriples D r) items).

(** [M] of the points of an item, Receiver:200-229. *)
Definition tripleM {D : dkt} (e : pt D * pt D * pt D) : pt D := e.1.1.
(** [N] of the points of an item, Receiver:200-229. *)
Definition tripleN {D : dkt} (e : pt D * pt D * pt D) : pt D := e.1.2.
(** [sigmaB] of the points of an item, Receiver:200-229. *)
Definition tripleB {D : dkt} (e : pt D * pt D * pt D) : pt D := e.2.

(** Second message: [sigmaPhi] (Receiver:247, 252-254) and [sigmaPhis] (Receiver:286-296). *)
Record msg2 (D : dkt) := mkMsg2 { m2Phi : sc D; m2Phis : list (list (sc D)) }.
Global Arguments m2Phi {D}. Global Arguments m2Phis {D}.
(** Receiver:238-296. *)
Definition recvSecond (D : dkt) (r : recvRnd D) (m : msg1 D) : msg2 D :=
  let e := challenge D (m1A m) (map (map tripleB) (m1Items m)) in
  mkMsg2 D (sadd D (rD r 0%nat) (smul D (rRc r) e))
    (imap (fun t l => map (fun k => sadd D (rDs r t k) (smul D (rRcs r t k) e)) (seq 0 (length l))) (m1Items m)).

(** Everything the sender sends: [sigma2A], [sigma2As] (Sender:177-234), [Z], [sigma2Phi] (Sender:99, 264-271), [Mps] (Sender:224,
    353-367) and the masks (Sender:373-402). *)
Record msgS (D : dkt) := mkMsgS {
  sA : pt D; sAs : list (list (pt D)); sZ : pt D; sPhi : sc D; sMps : list (list (pt D)); sTs : list (list N) }.
Global Arguments sA {D}. Global Arguments sAs {D}. Global Arguments sZ {D}. Global Arguments sPhi {D}. Global Arguments sMps {D}.
Global Arguments sTs {D}.

(** Receiver:437-451, Sender:384-398: the mask of an item. *)
Definition maskOf (D : dkt) (K : pt D) (x : N) : N := ro D [inl K; inl (ptOf D x); inr x].

(** Sizes of the lists of the threads, as both parties check them (Sender:200, 321, Receiver:349, 419). *)
Definition sized {A} (T n : nat) (l : list (list A)) : bool :=
  bool_decide (map length l = map (fun t => length (idxRange n T t)) (seq 0 T)).

(** Sender:335-339: true if the receiver's proof for the item verifies. *)
Definition itemProof (D : dkt) (e : sc D) (phi : sc D) (X A : pt D) (it : pt D * pt D * pt D) (phi' : sc D) : bool :=
  bool_decide (psub D (pmul D (gen D) phi) (pmul D (padd D (gg D) (gggS D)) phi')
    = padd D (psub D A (tripleB it)) (pmul D (psub D X (padd D (tripleM it) (tripleN it))) e)).

(** Sender.cpp:34-423 on the two received messages. Result: for each item of each thread whether its proof verified (a failure is only
    printed, Sender:339-348), and what was sent. *)
Definition sendInputS (D : dkt) (s : sendRnd D) (T : nat) (S : list N) (m1 : msg1 D) (m2 : msg2 D)
  : outcome (option (list (list bool) * msgS D)) :=
  if (T =? 0)%nat then Thrown None   (* [std::vector(chls.size() - 1)] *)
  else match threadItems T S with
  | None => UB
  | Some items =>
      if negb (sized T (length S) (m1Items m1)) then Thrown None
      else
        let As := map (map (fun it => pmul D (tripleM it) (sR2 s))) (m1Items m1) in
        let A := pmul D (gg D) (sR2 s) in
        let c := challenge D A As in
        let e := challenge D (m1A m1) (map (map tripleB) (m1Items m1)) in
        if negb (sized T (length S) (m2Phis m2)) then Thrown None
        else
          Done (Some (zip_with (zip_with (itemProof D e (m2Phi m2) (m1X m1) (m1A m1))) (m1Items m1) (m2Phis m2),
            mkMsgS D A As (pmul D (gg D) (sRs s)) (sadd D (sR2 s) (smul D c (sRs s)))
              (map (map (fun it => pmul D (tripleM it) (sRs s))) (m1Items m1))
              (map (map (fun x => maskOf D (pmul D (ptOf D x) (sRs s)) x)) items)))
  end.

(** Receiver:379-386: the proof of [Z]. *)
Definition zProof (D : dkt) (c : sc D) (m : msgS D) : bool :=
  bool_decide (padd D (sA m) (pmul D (sZ m) c) = pmul D (gg D) (sPhi m)).
(** Receiver:465-472: the proof of an [Mpi]. *)
Definition mpProof (D : dkt) (c phi : sc D) (M A Mp : pt D) : bool :=
  bool_decide (padd D A (pmul D Mp c) = pmul D M phi).

(** Receiver:432-451: the receiver's mask of item [k] of thread [t]. *)
Definition recvMask (D : dkt) (r : recvRnd D) (Z : pt D) (t k : nat) (Mp : pt D) (x : N) : N :=
  maskOf D (padd D (pmul D Z (ssub D (szero D) (rRcs r t k))) Mp) x.

(** [hashs.insert({idx, ...})], Receiver:452-457, 483-484: does nothing when the key is present. *)
Definition hashsInsert (m : list (N * (N * nat))) (e : N * nat) : list (N * (N * nat)) :=
  if bool_decide (e.1 mod two64 ∈ m.*1) then m else m ++ [(e.1 mod two64, e)].

(** Receiver:503-526: one mask of the sender. *)
Definition lookupTs (m : list (N * (N * nat))) (Ts : N) : option N :=
  match list_find (fun e => e.1 = Ts mod two64) m with
  | Some (_, (_, (blk, i))) => if blk =? Ts then Some (N.of_nat i) else None
  | None => None
  end.

(** Receiver:325-557 on the sender's messages; [items] are the receiver's threads, [old] is [mIntersection]. Thread 0 fills the table while
    it computes, then adds the entries of the other threads in order (Receiver:455-462, 476-486). *)
Definition recvFinish (D : dkt) (r : recvRnd D) (T : nat) (R : list N) (items : list (list N)) (m1 : msg1 D) (m : msgS D)
    (old : list N) : outcome (list N) :=
  if negb (sized T (length R) (sAs m)) then Thrown old
  else
    let c := challenge D (sA m) (sAs m) in
    if negb (zProof D c m) then Thrown old
    else if negb (sized T (length R) (sMps m)) then Thrown old
    else if negb (forallb id (concat (zip_with (fun ms am => zip_with (fun M a => mpProof D c (sPhi m) M a.1 a.2) ms am)
           (map (map tripleM) (m1Items m1)) (zip_with zip (sAs m) (sMps m))))) then Thrown old
    else if negb (sized T (length R) (sTs m)) then Thrown old
    else
      let masks := concat (imap (fun t l => imap (fun k e => recvMask D r (sZ m) t k e.1 e.2) l) (zip_with zip (sMps m) items)) in
      let table := foldl hashsInsert [] (zip masks (seq 0 (length R))) in
      Done (old ++ concat (map (omap (lookupTs table)) (sTs m))).

(** Both parties. Result: the receiver's [mIntersection], and the sender's
    verdicts on the receiver's proof. DktMPsiReceiver.cpp:36-558,
    DktMPsiSender.cpp:34-423. *)
Definition dktRun (D : dkt) (r : recvRnd D) (s : sendRnd D) (T : nat) (R S old : list N) : outcome (list N * list (list bool)) :=
  if (T =? 0)%nat then Thrown (old, [])
  else match threadItems T R with
  | None => UB
  | Some items =>
      let m1 := recvFirst D r items in
      let m2 := recvSecond D r m1 in
      match sendInputS D s T S m1 m2 with
      | Done (Some (verdicts, m)) =>
          match recvFinish D r T R items m1 m old with
          | Done out => Done (out, verdicts)
          | Thrown out => Thrown (out, verdicts)
          | UB => UB
          | OutOfFuel => OutOfFuel
          end
      | Done None => UB
      | Thrown _ => Thrown (old, [])
      | UB => UB
      | OutOfFuel => OutOfFuel
      end
  end.
