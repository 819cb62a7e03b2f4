(** What each thread of KKRT ([KkrtPsiSender::sendInput], [KkrtPsiReceiver::sendInput]) and of the three PRTY protocols ([output], [outputBestComm], [outputBigPoly]
    of [PrtySender] and [PrtyReceiver]) does on its channel and at the joins, in program order, as scripts for Sched_Model.v.

    Simplifications for the whole file.
    - Computations between these events are left out and do not throw. In particular the loop of PrtySender.cpp:139 is taken with [++j] (C145) and
      the file as if it compiled (DESIGN.md, trusted base).
    - PRTY receives into vectors, which take the size of the message ([chl.recv(recvBuff)]). So the size in a receive is the size of the message
      that the step of the same number has.
    - [init] of PRTY is over: messages are counted from the first one of the output function. *)
From Verif Require Import Base Partition_Model Sched_Model Threads_Model Kkrt_Model.

(** ** KKRT *)

(** The size of a message of Kkrt_Model.v (KkrtPsiSender.cpp:46, 377-388,
    468-504). *)
Definition msgSize (m : message) : N := match m with SeedMsg b | CorrMsg b | MaskMsg b | DummyMsg b => b end.
(** [kBase], [kOprf]: conversations of the two [init]: base OTs, [init] of
    the OPRF; bins, mask bytes and number of sender items as each party has
    them. KkrtPsiSender.cpp:46-86, KkrtPsiReceiver.cpp:68-104. *)
Record kkrtNet := mkKkrtNet { kBase : list (bool * N); kOprf : list (bool * N); kBinsS : N; kBinsR : N; kMaskS : N; kMaskR : N; kNS : N; kNR : N }.
(** KkrtPsiSender.cpp:377-388. *)
Definition kCorrS (P : kkrtNet) : list N := map msgSize (corrStepsS (N.to_nat (kBinsS P)) (kBinsS P) 0).
(** KkrtPsiReceiver.cpp:151-189. *)
Definition kCorrR (P : kkrtNet) : list N := map msgSize (corrStepsR (N.to_nat (kBinsR P)) (kBinsR P) 0).
(** KkrtPsiSender.cpp:468-497. *)
Definition kMasksS (P : kkrtNet) : list N := map msgSize (maskStepsS (N.to_nat (kNS P)) (kMaskS P) (kNS P) 0).
(** KkrtPsiReceiver.cpp:200-211. *)
Definition kMasksR (P : kkrtNet) : list N := map msgSize (maskStepsR (kMaskR P) (kNR P)).
(** The barrier that stands for the start of the thread,
    KkrtPsiSender.cpp:374. *)
Definition kStartB : nat := 5.
(** [init] (KkrtPsiSender.cpp:46-86, KkrtPsiReceiver.cpp:68-104): the seeds are sent first; their receive is posted before the base OTs and waited for after them. *)
Definition kSeeds (me : bool) (P : kkrtNet) : list ev :=
  Snd (Chan 0 me) 16 :: talk me 0 1 (kBase P) ++ Get (Chan 0 (negb me)) 0 16 :: talk me 0 (S (heard me (kBase P))) (kOprf P).
(** Receives of a party in [init]: KkrtPsiSender.cpp:46-86,
    KkrtPsiReceiver.cpp:68-104. *)
Definition kHeard (me : bool) (P : kkrtNet) : nat := S (heard me (kBase P) + heard me (kOprf P)).
(** KkrtPsiSender.cpp:374-389: the thread that receives the corrections; each addition to [recvedIdx] is an arrival. *)
Fixpoint kRecvs (j : nat) (ks : list N) : list ev :=
  match ks with [] => [] | k :: ks' => Get (Chan 0 false) j k :: Snd (Barrier true barA) 0 :: kRecvs (S j) ks' end.
(** KkrtPsiSender.cpp:374-389. *)
Definition kThread (P : kkrtNet) : list ev := Wai (Barrier true kStartB) 1 :: kRecvs (kHeard true P) (kCorrS P) ++ [done true].
(** KkrtPsiSender.cpp:338-507: main thread. The encoding loop 402-466 is left when [recvedIdx] is the number of bins; masks 468-497, last byte 503-504, join 507. *)
Definition kMain (P : kkrtNet) : list ev :=
  kSeeds true P ++ Snd (Barrier true kStartB) 0 :: Wai (Barrier true barA) (length (kCorrS P)) :: Act MasksSent ::
  sends (Chan 0 true) (kMasksS P) ++ [Snd (Chan 0 true) 1; Wai (Barrier true joinB) 1].
(** KkrtPsiReceiver.cpp:148-189, 200-232. *)
Definition kReceiver (P : kkrtNet) : list ev :=
  kSeeds false P ++ sends (Chan 0 false) (kCorrR P) ++ Act Inserted :: gets (Chan 0 true) (kHeard false P) (kMasksR P).
(** KkrtPsiSender.cpp:374-504, KkrtPsiReceiver.cpp:148-244: the calling
    thread of the sender, its second thread, the receiver. *)
Definition kkrtScripts (P : kkrtNet) : list (list ev) := [kMain P; kThread P; kReceiver P].

(** ** Threads in phases *)

(** What a thread does on its channel: sends, then receives. [phase w]:
    number of the loop that starts it. PrtySender.cpp:283-357, 602-735,
    797-1084, PrtyReceiver.cpp:194-302, 468-601, 698-994. *)
Record work := mkWork { phase : nat; wCh : nat; wSend : list N; wGet : list N }.
(** [thrds[i] = std::thread(...)]: the thread starts after its loop (barrier
    [2 k]) and its end is an arrival at the join (barrier [2 k + 1]). For
    example PrtySender.cpp:283-287. *)
Definition startB (k : nat) : nat := 2 * k.
(** For example PrtySender.cpp:291-292. *)
Definition endB (k : nat) : nat := S (2 * k).
(** For example the thread started at PrtySender.cpp:283-287. *)
Definition worker (p : bool) (w : work) : list ev :=
  [Wai (Barrier p (startB (phase w))) 1] ++ sends (Chan (wCh w) p) (wSend w) ++ gets (Chan (wCh w) (negb p)) 0 (wGet w) ++ [Snd (Barrier p (endB (phase w))) 0].
(** The calling thread: in each of [n] phases it starts the threads and
    joins them. What it does itself between two joins is a phase with one
    thread. For example PrtySender.cpp:283-292. *)
Definition count (ws : list work) (k : nat) : nat := length (List.filter (fun w => (phase w =? k)%nat) ws).
(** For example PrtySender.cpp:283-292, 349-357. *)
Definition mainOf (p : bool) (n : nat) (ws : list work) : list ev :=
  concat (map (fun k => [Snd (Barrier p (startB k)) 0; Wai (Barrier p (endB k)) (count ws k)]) (seq 0 n)).
(** The calling thread and all its threads, lines at [work]. *)
Definition party (p : bool) (n : nat) (ws : list work) : list (list ev) := mainOf p n ws :: map (worker p) ws.

(** ** PRTY *)

(** Threads; step sizes for bins and masks (PrtyDefines.h: [stepSize], [stepSizeMaskSent]); bins as each party has them; number of sender
    items as each party has it; bytes of a step of [k] bins and of a step of [k] masks; bytes of the mask message for a hash number
    ([outputBestComm]), of the polynomials and of the mask message of a step of a thread ([outputBigPoly]). *)
Record prtyNet := mkPrtyNet { pT : nat; pStep : N; pMaskStep : N; pBinsS : N; pBinsR : N; pNS : N; pNR : N;
  polyLen : N -> N; maskLen : N -> N; bestLen : nat -> N; bigPolys : list N; bigLen : nat -> N -> N }.
(** PrtyReceiver.cpp:92-98, 149 and 338-356, 426; PrtySender.cpp:110-130, 150 and 423-444, 458: one message for each step of bins. *)
Definition pPolys (P : prtyNet) (bins : N) (t : nat) : list N :=
  map (fun c : N * N => polyLen P c.2) (piecesOf (pStep P) (evenSplit bins (N.of_nat (pT P)) (N.of_nat t))).
(** PrtySender.cpp:319-333, PrtyReceiver.cpp:222-235: two messages for each step of masks. *)
Definition pMasks (P : prtyNet) (n : N) (t : nat) : list N :=
  concat (map (fun c : N * N => [maskLen P c.2; maskLen P c.2]) (piecesOf (pMaskStep P) (evenSplit n (N.of_nat (pT P)) (N.of_nat t)))).
(** PrtySender.cpp:1014-1026, 1071, PrtyReceiver.cpp:892-900: one message for each step up to [endIdx - 1] (taken with [endIdx > 0]: 0 - 1 wraps in the code). *)
Definition pBig (P : prtyNet) (n : N) (t : nat) : list N :=
  let r := evenSplit n (N.of_nat (pT P)) (N.of_nat t) in map (fun c : N * N => bigLen P t c.1) (piecesOf (pMaskStep P) (r.1, r.2 - 1)).
(** One thread for each channel, PrtySender.cpp:283-287. *)
Definition threads (P : prtyNet) (f : nat -> work) : list work := map f (seq 0 (pT P)).

(** PrtySender.cpp:283-292, 349-357; PrtyReceiver.cpp:194-203, 294-302. *)
Definition outS (P : prtyNet) : list work := threads P (fun t => mkWork 0 t [] (pPolys P (pBinsS P) t)) ++ threads P (fun t => mkWork 1 t (pMasks P (pNS P) t) []).
(** PrtyReceiver.cpp:194-203, 294-302. *)
Definition outR (P : prtyNet) : list work := threads P (fun t => mkWork 0 t (pPolys P (pBinsR P) t) []) ++ threads P (fun t => mkWork 1 t [] (pMasks P (pNR P) t)).
(** PrtySender.cpp:283-357, PrtyReceiver.cpp:194-302: both parties. *)
Definition outScripts (P : prtyNet) : list (list ev) := party true 2 (outS P) ++ party false 2 (outR P).

(** PrtySender.cpp:602-611, 716-735; PrtyReceiver.cpp:468-477, 585-601. With one channel the calling thread does both hash numbers on it. *)
Definition bestS (P : prtyNet) : list work :=
  threads P (fun t => mkWork 0 t [] (pPolys P (pBinsS P) t)) ++
  (if (1 <? pT P)%nat then [mkWork 1 0 [bestLen P 0] []; mkWork 1 1 [bestLen P 1] []] else [mkWork 1 0 [bestLen P 0; bestLen P 1] []]).
(** PrtyReceiver.cpp:468-477, 585-601. *)
Definition bestR (P : prtyNet) : list work :=
  threads P (fun t => mkWork 0 t (pPolys P (pBinsR P) t) []) ++
  (if (1 <? pT P)%nat then [mkWork 1 0 [] [bestLen P 0]; mkWork 1 1 [] [bestLen P 1]] else [mkWork 1 0 [] [bestLen P 0; bestLen P 1]]).
(** PrtySender.cpp:602-735, PrtyReceiver.cpp:468-601: both parties. *)
Definition bestScripts (P : prtyNet) : list (list ev) := party true 2 (bestS P) ++ party false 2 (bestR P).

(** PrtySender.cpp:797-806 (rows), 853, 901 (polynomials, calling thread), 979-986 (masks), 1076-1084; PrtyReceiver.cpp:698-707, 763, 809, 986-994. *)
Definition bigS (P : prtyNet) : list work :=
  threads P (fun t => mkWork 0 t [] []) ++ [mkWork 1 0 [] (bigPolys P)] ++ threads P (fun t => mkWork 2 t [] []) ++ threads P (fun t => mkWork 3 t (pBig P (pNS P) t) []).
(** PrtyReceiver.cpp:698-707, 763, 809, 986-994. *)
Definition bigR (P : prtyNet) : list work :=
  threads P (fun t => mkWork 0 t [] []) ++ [mkWork 1 0 (bigPolys P) []] ++ threads P (fun t => mkWork 3 t [] (pBig P (pNR P) t)).
(** PrtySender.cpp:797-1084, PrtyReceiver.cpp:698-994: both parties. *)
Definition bigScripts (P : prtyNet) : list (list ev) := party true 4 (bigS P) ++ party false 4 (bigR P).
