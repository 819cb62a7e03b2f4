(** What each thread of ECDH ([sendInput]), DCW ([init] and [sendInput]) and DKT ([sendInput]) does on its channel and at promises and joins, in program order, as scripts for Sched_Model.v.
    eR, eS: libPSI/PSI/ECDH/EcdhPsiReceiver.cpp, EcdhPsiSender.cpp; wR, wS: libPSI/PSI/Dcw/DcwRBfPsiReceiver.cpp, DcwRBfPsiSender.cpp; kR, kS: libPSI/MPSI/DKT/DktMPsiReceiver.cpp, DktMPsiSender.cpp.

    Simplifications for the whole file: those of Threads_Model.v. The parties' set sizes may differ; each party computes all sizes from its own set, as in the code. *)
From Verif Require Import Base Partition_Model Ecdh_Model Sched_Model Threads_Model.

(** Size of a range. For the ranges of eR:58-60, kR:90-95. *)
Definition width (r : N * N) : N := r.2 - r.1.

(** ** ECDH *)

(** Set sizes of sender and receiver, bytes of a point, threads (=
    channels). eR:34-60, eS:35-55. *)
Record ecdh := mkEcdh { eNS : N; eNR : N; ePt : N; eT : nat }.
(** eR:58-60, 175-177, eS:53-55. *)
Definition eSub (P : ecdh) (n : N) (t : nat) : N := width (evenSplit n (N.of_nat (eT P)) (N.of_nat t)).
(** eR:47, eS:41. *)
Definition eMask (n : N) : N := maskBytes (N.to_nat n).
(** eS:51-134 (points sent 101, received 105-110), joins 150-151, second threads 153-159, joins 162-163. A second thread starts when all first threads are joined: the same
    script goes on after a barrier. *)
Definition eSender (P : ecdh) (t : nat) : list ev :=
  [Snd (Chan t true) (ePt P * eSub P (eNS P) t); Get (Chan t false) 0 (ePt P * eSub P (eNS P) t)] ++ barrier true barA (eT P) ++
  [Act MasksSent; Snd (Chan t true) (eMask (eNS P) * eSub P (eNS P) t); done true].
(** eR:56-157 (points sent 108, received 114-119, inserted 125-156), joins 169-170, second threads 173-232 (masks received 186-191, lookups 194-221), joins 234-235. *)
Definition eReceiver (P : ecdh) (t : nat) : list ev :=
  [Snd (Chan t false) (ePt P * eSub P (eNR P) t); Get (Chan t true) 0 (ePt P * eSub P (eNR P) t); Act Inserted] ++ barrier false barA (eT P) ++
  [Get (Chan t true) 1 (eMask (eNR P) * eSub P (eNR P) t); Act LookedUp; done false].
(** eR:233-234, eS:162-163. *)
Definition joinMain (p : bool) (T : nat) : list ev := [Wai (Barrier p joinB) T].
(** eR:34-249, eS:35-167: both parties. *)
Definition ecdhScripts (P : ecdh) : list (list ev) :=
  map (eSender P) (seq 0 (eT P)) ++ map (eReceiver P) (seq 0 (eT P)) ++ [joinMain true (eT P); joinMain false (eT P)].

(** ** DCW *)

(** Bytes of a seed, conversation of [genBaseOts], conversation of the
    extension on channel [c] for a number of OTs, set sizes, channels.
    wR:25-151, wS:19-139. *)
Record dcw := mkDcw { wSeed : N; wBase : list (bool * N); wExt : nat -> N -> list (bool * N); wNS : N; wNR : N; wT : nat }.
(** wR:45, wS:31: [(u64)(n * 128 * 1.5)]. *)
Definition wBits (n : N) : N := n * 192.
(** wR:76-96, wS:77-96: the extension of instance [i]; nothing is sent for no OTs. *)
Definition wConv (P : dcw) (n : N) (i : nat) : list (bool * N) :=
  let k := width (otSplit (wBits n) (N.of_nat (wT P)) (N.of_nat i)) in if k =? 0 then [] else wExt P i k.
(** The start of the threads, wR:116-133, wS:113-125. *)
Definition wStartB : nat := 5.
(** wR:37-39, 67-70, wS:35-37, 67-70: seeds and base OTs; threads [i] with instance [i + 1] on channel [i + 1] wR:116-133, wS:113-125; the calling thread has instance 0 on channel 0
    wR:137-138, wS:127-128; joins wR:144-145, wS:133-134. Then [sendInput]: wR:219-228, wS:160, 193. *)
Definition wOnline (me : bool) (n : N) (j : nat) : list ev :=
  if me then [Get (Chan 0 false) j (wBits n); Act MasksSent; Snd (Chan 0 true) (16 * n)] else [Snd (Chan 0 false) (wBits n); Get (Chan 0 true) j (16 * n); Act LookedUp].
(** wR:25-151, 172-231, wS:19-139, 149-195: one channel of a party. *)
Definition wParty (me : bool) (P : dcw) (n : N) (c : nat) : list ev :=
  match c with
  | O => [Snd (Chan 0 me) (wSeed P); Get (Chan 0 (negb me)) 0 (wSeed P)] ++ talk me 0 1 (wBase P) ++ [Snd (Barrier me wStartB) 0] ++ talk me 0 (1 + heard me (wBase P)) (wConv P n 0) ++
         [Wai (Barrier me joinB) (wT P - 1)] ++ wOnline me n (1 + heard me (wBase P) + heard me (wConv P n 0))
  | S _ => Wai (Barrier me wStartB) 1 :: talk me c 0 (wConv P n c) ++ [done me]
  end.
(** Both parties, wR:25-231, wS:19-195. *)
Definition dcwScripts (P : dcw) : list (list ev) := map (wParty true P (wNS P)) (seq 0 (wT P)) ++ map (wParty false P (wNR P)) (seq 0 (wT P)).

(** ** DKT *)

(** Set sizes, bytes of a point and of a number, channels. kR:27-95,
    kS:26-75. *)
Record dkt := mkDkt { kNS : N; kNR : N; kPt : N; kNum : N; kT : nat }.
(** kR:90-95, kS:70-75 with the loops in steps of 64 (kR:192-233, kS:192-235 and others) and of 512 (kS:373-402): the number of items of each step. *)
Definition kRange (P : dkt) (n : N) (t : nat) : N * N := evenSplit n (N.of_nat (kT P)) (N.of_nat t).
(** kR:192-233, kS:192-235. *)
Definition kSteps (P : dkt) (n : N) (t : nat) : list N := map snd (piecesOf 64 (kRange P n t)).
(** kS:373-402, kR:497-530. *)
Definition kMaskSteps (P : dkt) (n : N) (t : nat) : list N := map snd (piecesOf 512 (kRange P n t)).
(** kS:352-367: the loop over [Mps]. *)
Definition kMpsSteps (P : dkt) (n : N) (t : nat) : list N := map snd (piecesOf 64 (0, width (kRange P n t))).
(** Promises of the sender: kS:42-43 and 40-41 (one per thread, modelled as arrivals), 55, 58; of the receiver: kR:51-56 (two groups), 66, 69, 72, 74. *)
Definition pchB : nat := 0.
(** kS:55. *)
Definition pchAllB : nat := 1.
(** kS:41, kR:55. *)
Definition sigmaHashB : nat := 2.
(** kS:58. *)
Definition sigma2PhiB : nat := 3.
(** kR:72. *)
Definition sigmaValsB : nat := 1.
(** kR:56. *)
Definition sigma2HashB : nat := 3.
(** kR:74. *)
Definition sigma2ValsB : nat := 5.
(** kR:66. *)
Definition inputHashB : nat := 6.
(** kR:69. *)
Definition mergedB : nat := 7.
(** kS:124-152. *)
Definition kPch (P : dkt) (t : nat) : list ev :=
  match t with
  | O => [Wai (Barrier true pchB) (kT P - 1); Get (Chan 0 false) 0 (2 * kPt P); Snd (Barrier true pchAllB) 0; Snd (Chan 0 true) (kPt P)]   (* the last one: kS:177-188 *)
  | S _ => [Snd (Barrier true pchB) 0; Wai (Barrier true pchAllB) 1]
  end.
(** kS:192-235: receives of [3 * kPt] for each item are answered by [kPt] for each item; [j]: receives before. *)
Definition kAnswers (P : dkt) (n : N) (t j : nat) : list ev :=
  concat (imap (fun i k => [Get (Chan t false) (j + i) (k * (3 * kPt P)); Snd (Chan t true) (k * kPt P)]) (kSteps P n t)).
(** kS:246-304. *)
Definition kProof (P : dkt) (t j : nat) : list ev :=
  match t with
  | O => [Wai (Barrier true sigmaHashB) (kT P - 1); Snd (Chan 0 true) (kPt P + kNum P); Get (Chan 0 false) j (kNum P); Snd (Barrier true sigma2PhiB) 0]
  | S _ => [Snd (Barrier true sigmaHashB) 0; Wai (Barrier true sigma2PhiB) 1]
  end.
(** Extra messages of channel 0. kR:164-173, kS:134-137. *)
Definition first (t : nat) : nat := match t with O => 1 | S _ => 0 end.
(** kS:408-419: thread 0 is the calling thread and joins the others. *)
Definition kEnd (me : bool) (P : dkt) (t : nat) : list ev := match t with O => [Wai (Barrier me joinB) (kT P - 1)] | S _ => [done me] end.
(** kS:68-405: proofs received 315-349, [Mps] sent 352-367, masks sent 373-402. *)
Definition kSender (P : dkt) (t : nat) : list ev :=
  let n := kNS P in let steps := kSteps P n t in
  kPch P t ++ kAnswers P n t (first t) ++ kProof P t (first t + length steps) ++
  gets (Chan t false) (first t + length steps + first t) (map (fun k => k * kNum P) steps) ++
  Act MasksSent :: sends (Chan t true) (map (fun k => k * kPt P) (kMpsSteps P n t)) ++ sends (Chan t true) (map (fun k => k * 16) (kMaskSteps P n t)) ++ kEnd true P t.
(** kR:164-173; 238-265; 330-337; 361-401; 476-495. *)
Definition kHead (P : dkt) (t : nat) : list ev := match t with O => [Snd (Chan 0 false) (2 * kPt P)] | S _ => [] end.
(** kR:238-265. *)
Definition kSigma (P : dkt) (t : nat) : list ev :=
  match t with
  | O => [Wai (Barrier false sigmaHashB) (kT P - 1); Snd (Barrier false sigmaValsB) 0; Snd (Chan 0 false) (kNum P)]
  | S _ => [Snd (Barrier false sigmaHashB) 0; Wai (Barrier false sigmaValsB) 1]
  end.
(** kR:330-337. *)
Definition kSigma2A (P : dkt) (t : nat) : list ev := match t with O => [Get (Chan 0 true) 0 (kPt P)] | S _ => [] end.
(** kR:361-401. *)
Definition kSigma2 (P : dkt) (t j : nat) : list ev :=
  match t with
  | O => [Wai (Barrier false sigma2HashB) (kT P - 1); Get (Chan 0 true) j (kPt P + kNum P); Snd (Barrier false sigma2ValsB) 0]
  | S _ => [Snd (Barrier false sigma2HashB) 0; Wai (Barrier false sigma2ValsB) 1]
  end.
(** [Hashed]: the hashes of the items of this thread are done (kR:412-473). [Inserted]: thread 0 has put the hashes of all threads in the table. *)
Definition kMerge (P : dkt) (t : nat) : list ev :=
  match t with
  | O => [Act Hashed; Wai (Barrier false inputHashB) (kT P - 1); Act Inserted; Snd (Barrier false mergedB) 0]
  | S _ => [Act Hashed; Snd (Barrier false inputHashB) 0; Wai (Barrier false mergedB) 1]
  end.
(** kR:88-532: points sent 192-233, proofs sent 278-323, [sigma2As] received 340-358, [Mpi] received 412-473, masks received and looked up 497-530 (the receive takes a vector of any size and
    the loop ends when the masks of the range have arrived; here the messages of a sender with a set of this size). *)
Definition kReceiver (P : dkt) (t : nat) : list ev :=
  let n := kNR P in let steps := kSteps P n t in
  kHead P t ++ sends (Chan t false) (map (fun k => k * (3 * kPt P)) steps) ++ kSigma P t ++ sends (Chan t false) (map (fun k => k * kNum P) steps) ++
  kSigma2A P t ++ gets (Chan t true) (first t) (map (fun k => k * kPt P) steps) ++ kSigma2 P t (first t + length steps) ++
  gets (Chan t true) (first t + length steps + first t) (map (fun k => k * kPt P) steps) ++ kMerge P t ++ Act LookedUp ::
  gets (Chan t true) (first t + length steps + first t + length steps) (map (fun k => k * 16) (kMaskSteps P n t)) ++ kEnd false P t.
(** kR:36-558, kS:34-423: both parties. *)
Definition dktScripts (P : dkt) : list (list ev) := map (kSender P) (seq 0 (kT P)) ++ map (kReceiver P) (seq 0 (kT P)).
