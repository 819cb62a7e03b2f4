(** What the client and the two servers of PIR-PSI do on their channels, in program order, as scripts for Sched_Model.v.
    C: libPSI/PSI/Drrn/DrrnPsiClient.cpp, V: libPSI/PSI/Drrn/DrrnPsiServer.cpp. [init] is followed by [recv] and [send] without other use of
    the channels.

    Simplifications for the whole file: those of Threads_Model.v. The KKRT protocol between client and server 0 is an arbitrary conversation for its [init] and one
    for its [sendInput] (true: a message of the server), in which each party sends and expects the same messages. A receive into a vector that adapts its size is one that
    expects the size it has in this run. Channel 0 joins the client and server 0, channel 1 the client
    and server 1 (true: from the server), channel 2 the servers (true: from server 1). Barriers of server 0 have [p = true], those of server 1 [p = false]. *)
From Verif Require Import Base Drrn_Model Sched_Model Threads_Model.

(** The two KKRT conversations and the numbers of threads of the servers (at least 1; V:337, a number of 0 is replaced by the number of processors). *)
Record drrnNet := mkNet { zInit : list (bool * N); zOnline : list (bool * N); zT0 : nat; zT1 : nat }.
(** The number of the barrier that stands for the start of the threads,
    V:400-402. *)
Definition zStartB : nat := 5.

(** Bytes of the keys of one region, C:125, 134, V:150-175: [mBinSize] rows of [kDepth + 1 + groupSize] blocks. 0 where the parameters make the code throw (C:90, V:349). *)
Definition zKeys (p : dparams) : N :=
  match domainParams (dSlots p) (N.of_nat (dS p)) (N.of_nat (dB p)) with
  | Done (d, g) => 16 * (N.of_nat (dBin p) * (d + 1 + g))
  | _ => 0
  end.
(** Bytes of [permSize] blocks and of [permSize] indices. For example
    V:61-65, 427-429: [permSize] blocks. *)
Definition zBlocks (p : dparams) : N := 16 * N.of_nat (permSize p).
(** V:426-428: [permSize] entries of type [u32]. *)
Definition zIndices (p : dparams) : N := 4 * N.of_nat (permSize p).

(** V:370: the regions of a thread, [for (binIdx = tIdx; binIdx < mNumSimpleBins; binIdx += numThreads)]; [fuel] at least the number of regions. *)
Fixpoint zStride (T n fuel b : nat) : list nat :=
  match fuel with
  | O => []
  | S f => if (b <? n)%nat then b :: zStride T n f (b + T) else []
  end.
(** V:370. *)
Definition zMine (T t n : nat) : list nat := zStride T n n t.
(** V:355-366, 189, 368-393: the receives of keys are posted in the order of the regions, [h] receives before; a thread waits for those of its regions. [Hashed]: the shares
    of the regions of this thread are written. *)
Definition zRoutine (p : dparams) (c h T t : nat) : list ev :=
  map (fun b => Get (Chan c false) (h + b) (zKeys p)) (zMine T t (dS p)) ++ [Act Hashed].
(** Server 0: V:45-47 ([init]), 400-407 (threads, [routine(0)], joins), 428-429, 441, 455. [MasksSent]: all shares are read (V:444-453). *)
Definition zServer0 (P : drrnNet) (p : dparams) (t : nat) : list ev :=
  let h := heard true (zInit P) in
  match t with
  | O => talk true 0 0 (zInit P) ++ [Get (Chan 2 true) 0 (zBlocks p); Snd (Barrier true zStartB) 0] ++ zRoutine p 0 h (zT0 P) 0 ++
         [Wai (Barrier true joinB) (zT0 P - 1); Get (Chan 0 false) (h + dS p) (zIndices p); Get (Chan 0 false) (h + dS p + 1) (zBlocks p);
          Get (Chan 2 true) 1 (zBlocks p); Act MasksSent] ++ talk true 0 (h + dS p + 2) (zOnline P)
  | S _ => Wai (Barrier true zStartB) 1 :: zRoutine p 0 h (zT0 P) t ++ [done true]
  end.
(** Server 1: V:92 ([init]), 400-407, 412-421. *)
Definition zServer1 (P : drrnNet) (p : dparams) (t : nat) : list ev :=
  match t with
  | O => [Snd (Chan 2 true) (zBlocks p); Snd (Barrier false zStartB) 0] ++ zRoutine p 1 0 (zT1 P) 0 ++
         [Wai (Barrier false joinB) (zT1 P - 1); Act MasksSent; Snd (Chan 2 true) (zBlocks p)]
  | S _ => Wai (Barrier false zStartB) 1 :: zRoutine p 1 0 (zT1 P) t ++ [done false]
  end.
(** Client: C:40 ([init]), 198-199 for each region, 231-232, 238. *)
Definition zClient (P : drrnNet) (p : dparams) : list ev :=
  talk false 0 0 (zInit P) ++ concat (replicate (dS p) [Snd (Chan 0 false) (zKeys p); Snd (Chan 1 false) (zKeys p)]) ++
  [Snd (Chan 0 false) (zIndices p); Snd (Chan 0 false) (zBlocks p)] ++ talk false 0 (heard false (zInit P)) (zOnline P).
(** Server 0, server 1, client. Each party has its own parameters, computed
    in its [init]. DrrnPsiServer.cpp:334-460, DrrnPsiClient.cpp:43-246. *)
Definition drrnScripts (P : drrnNet) (p0 p1 pc : dparams) : list (list ev) :=
  map (zServer0 P p0) (seq 0 (zT0 P)) ++ map (zServer1 P p1) (seq 0 (zT1 P)) ++ [zClient P pc].
