(** Benchmark drivers of the command line tool: frontend/OtBinMain.cpp, bloomFilterMain.cpp, dcwMain.cpp, dktMain.cpp, ecdhMain.cpp (which sets the parties get and how the drivers keep
    in step), frontend/util.cpp (ping test) and frontend/main.cpp (command line).

    Simplifications for the whole file.
    - A [PRNG] with a given seed is a stream of blocks; [prng.get(p, n)] takes the next [n] blocks, [prng.get<block>()] the next one (cryptoTools).
    - Timers and printing are left out. Nothing throws.
    - In the scripts the calls [init] and [sendInput] are arbitrary conversations on channel 0. *)
From Verif Require Import Base Sched_Model.

(** The protocols whose benchmark is started with two drivers of the same
    form: frontend/main.cpp:450-458. *)
Inductive bench := DcwR | Rr16 | Rr17a | Rr17aSM | Rr17b | Kkrt | Grr18 | Dkt | Ecdh.
(** util.h:19-50, [LaunchParams], as far as the loops depend on it. [lScalers]: mBinScaler; [lEps]: the values of -epsBins (OtBinMain.cpp:599 and :675). *)
Record launch := mkLaunch { lItems : list nat; lThreads : list nat; lScalers : list N; lEps : list N; lTrials : nat }.

(** One pass through the innermost loop: set size, threads, bin scaler,
    epsilon. The loop variables, for example OtBinMain.cpp:47-55, 600-610. *)
Record pass := mkPass { pItems : nat; pThreads : nat; pScaler : N; pEps : N }.

(** The loops, as nested in the drivers of the sender ([true]) and of the receiver:
    - OtBinMain.cpp:47-55 / :108-117 (RR17a), :192-200 / :251-259 (standard model), :328-336 / :393-402 (RR17b): items, threads, scalers, trials;
    - OtBinMain.cpp:468-474 / :526-533 (KKRT), bloomFilterMain.cpp:28-34 / :77-83, dktMain.cpp:27-33 / :62-68, ecdhMain.cpp:26-32 / :62-68: items, threads, trials;
    - dcwMain.cpp:36-47 / :82-94: the same, passes with another number of threads than 1 are skipped;
    - OtBinMain.cpp:600-610 / :676-689 (GRR18): epsilons, items, threads, scalers, trials. *)
Definition loop3 (l : launch) (keep : nat -> bool) : list pass :=
  concat (map (fun n => concat (map (fun t => if keep t then replicate (lTrials l) (mkPass n t 0 0) else []) (lThreads l))) (lItems l)).
(** OtBinMain.cpp:47-55 / :108-117, :192-200 / :251-259, :328-336 / :393-402
    (items, threads, scalers, trials). *)
Definition loop4 (l : launch) (e : N) : list pass :=
  concat (map (fun n => concat (map (fun t => concat (map (fun s => replicate (lTrials l) (mkPass n t s e)) (lScalers l))) (lThreads l))) (lItems l)).
(** The passes of each driver in order, lines as above. *)
Definition passes (b : bench) (sender : bool) (l : launch) : list pass :=
  match b with
  | DcwR => loop3 l (fun t => (t =? 1)%nat)
  | Rr16 | Kkrt | Dkt | Ecdh => loop3 l (fun _ => true)
  | Rr17a | Rr17aSM | Rr17b => loop4 l 0
  | Grr18 => concat (map (loop4 l) (lEps l))
  end.

(** [_mm_set_epi32(a, b, c, d)]. OtBinMain.cpp:44, 103, 189, 246, 325, 388:
    the seeds of the generators. *)
Definition epi32 (a b c d : N) : N := a * 2 ^ 96 + b * 2 ^ 64 + c * 2 ^ 32 + d.
(** The seeds of the [prng] of each driver: OtBinMain.cpp:44, :103, :189, :246, :325, :388, :465, :521 (KKRT receiver), :596, :670; bloomFilterMain.cpp:26, :75; dcwMain.cpp:34, :80;
    dktMain.cpp:25, :60; ecdhMain.cpp:24, :60. *)
Definition seedOf (b : bench) (sender : bool) : N :=
  match b, sender with
  | Kkrt, false => epi32 4253465 746587658 234435 23987045
  | _, _ => epi32 4253465 3434565 234435 23987045
  end.
(** Does [init] get a block of the same generator? The receivers of RR16 (bloomFilterMain.cpp:102), DKT (dktMain.cpp:78) and ECDH (ecdhMain.cpp:80) pass [ZeroBlock], the one of DCW (dcwMain.cpp:115)
    [sysRandomSeed()]. *)
Definition drawsSeed (b : bench) (sender : bool) : nat :=
  match b, sender with
  | (DcwR | Rr16 | Dkt | Ecdh), false => 0
  | _, _ => 1
  end.
(** One driver: [st] the blocks of its generator, [pos] the next one. In
    each pass the set is drawn first, then the seed of [init]. The result:
    the set of each pass. For example OtBinMain.cpp:57-58, 72 (sender) and
    121-125, 148 (receiver). *)
Fixpoint driver (st : nat -> N) (extra pos : nat) (ps : list pass) : list (list N) :=
  match ps with
  | [] => []
  | p :: ps' => map st (seq pos (pItems p)) :: driver st extra (pos + pItems p + extra) ps'
  end.
(** [prng seed]: the stream. OtBinMain.cpp:44, 103 (the generator is made
    once, before the loops). *)
Definition benchSets (prng : N -> nat -> N) (b : bench) (sender : bool) (l : launch) : list (list N) :=
  driver (prng (seedOf b sender)) (drawsSeed b sender) 0 (passes b sender l).

(** * Messages of the drivers on channel 0 *)
(** [(true, k)]: a message of [k] bytes is sent; [(false, k)]: one is
    received. Used for the channel operations of OtBinMain.cpp,
    bloomFilterMain.cpp, dcwMain.cpp, dktMain.cpp and ecdhMain.cpp, cited
    where they occur. *)
Definition op := (bool * N)%type.
(** [asyncSend] of [k] bytes, for example OtBinMain.cpp:69. *)
Definition tx (k : N) : op := (true, k).
(** [recv] of [k] bytes, for example OtBinMain.cpp:70. *)
Definition rx (k : N) : op := (false, k).

(** The dummy messages before [init] and between [init] and [sendInput].
    Lines at each case. *)
Definition hello (b : bench) (sender : bool) : list op :=
  match b, sender with
  | (Rr17a | Rr17aSM | Rr17b | Kkrt | Grr18), true => [tx 1; rx 1]   (* OtBinMain.cpp:69-70, :211-212, :346-347, :484-485, :626-627 *)
  | (Rr17a | Rr17aSM | Rr17b | Kkrt | Grr18), false => [rx 1; tx 1]  (* :138-140, :277-279, :418-420, :549-551, :711-713 *)
  | _, _ => []
  end.
(** The dummy messages between [init] and [sendInput], lines at each case. *)
Definition between (b : bench) (sender : bool) : list op :=
  match b, sender with
  | (Rr17a | Rr17aSM | Rr17b | Rr16), _ => [tx 1; rx 1]   (* OtBinMain.cpp:74-75 / :150-151, :216-217 / :289-290, :352-353 / :430-431, bloomFilterMain.cpp:54-55 / :106-107 *)
  | (DcwR | Dkt | Ecdh), true => [tx 1]                   (* dcwMain.cpp:65, dktMain.cpp:44, ecdhMain.cpp:44 *)
  | (DcwR | Dkt | Ecdh), false => [rx 1]                  (* dcwMain.cpp:117, dktMain.cpp:80, ecdhMain.cpp:82 *)
  | (Kkrt | Grr18), _ => []                               (* commented out, OtBinMain.cpp:489-490, :561-562, :631-632, :722-723 *)
  end.
(** The whole driver of one party; [ini] and [inp]: what [init] and
    [sendInput] send and receive in a pass. For example OtBinMain.cpp:57-77
    (sender) and 121-152 (receiver). *)
Definition benchOps (b : bench) (sender : bool) (ini inp : pass -> list op) (l : launch) : list op :=
  concat (map (fun p => hello b sender ++ ini p ++ between b sender ++ inp p) (passes b sender l)).

(** Operations of one party on channel 0 as a script of Sched_Model.v ([j]:
    receives so far). For example OtBinMain.cpp:69-77. *)
Fixpoint script (me : bool) (j : nat) (l : list op) : list ev :=
  match l with
  | [] => []
  | (true, k) :: l' => Snd (Chan 0 me) k :: script me j l'
  | (false, k) :: l' => Get (Chan 0 (negb me)) j k :: script me (S j) l'
  end.
(** For example OtBinMain.cpp:37-94 (sender) and 96-179 (receiver). *)
Definition twoParties (a b : list op) : list (list ev) := [script true 0 a; script false 0 b].

(** * Ping test, util.cpp:12-243 *)
(** util.cpp:12-125, [senderGetLatency]; [T]: tryCount, [M]: trials, [big]: bytes of oneMbit. *)
Definition pingSender (T M : nat) (big : N) : list op :=
  [tx 1; rx 1; tx 1; rx 1]
  ++ concat (replicate T (rx 1 :: replicate M (tx big)))
  ++ concat (replicate T (tx 1 :: replicate M (rx big)))
  ++ concat (replicate T (concat (replicate M [tx big; rx big]))).
(** util.cpp:127-243, [recverGetLatency]. *)
Definition pingReceiver (T M : nat) (big : N) : list op :=
  [rx 1; tx 1; rx 1; tx 1]
  ++ concat (replicate T (tx 1 :: replicate M (rx big)))
  ++ concat (replicate T (rx 1 :: replicate M (tx big)))
  ++ concat (replicate T (concat (replicate M [tx big; rx big]))).
(** The counters [s] and [r] (64 bits) that are printed at the end. The ping
    test, frontend/util.cpp:12-243 (lines at [ping] below). *)
Definition counter (dir : bool) (l : list op) : N :=
  fold_left (fun acc (o : op) => if Bool.eqb o.1 dir then (acc + o.2) mod two64 else acc) l 0.

(** * Command line, main.cpp *)
(** main.cpp:114, :125 and :235, [\[\](u64 v) { return 1 << v; }]: the shift is on [int]; 1 << 31 is the smallest [int] and becomes a [u64] by sign extension; further shifts are undefined. *)
Definition powItems (v : N) : outcome N :=
  if v <? 31 then Done (N.shiftl 1 v) else if v =? 31 then Done (2 ^ 64 - 2 ^ 31) else UB.

(** [EpMode], main.cpp:246, 304, 312. *)
Inductive mode := Server | Client.
(** The two roles, given by [roleTag]: main.cpp:273-275. *)
Inductive psiRole := PsiSender | PsiReceiver.
(** main.cpp:244-264, [go] of [benchmark]: mode of the endpoint and the function called, by [mIdx]. *)
Definition benchRole (idx : N) : mode * psiRole := (if idx =? 0 then Client else Server, if idx =? 0 then PsiReceiver else PsiSender).
(** main.cpp:273-289: without -r both parties run in one process, as 0 and 1. *)
Definition benchParties (role : option N) : list N := match role with Some r => [r] | None => [0; 1] end.

(** main.cpp:133-155, [go] of [banchmarkPIR]: the two endpoints; session names are 0: "client-server0", 1: "client-server1", 2: "server0-server1". *)
Definition pirEndpoints (idx : N) : list (nat * mode) :=
  if idx =? 0 then [(0%nat, Client); (1%nat, Client)]
  else if idx =? 1 then [(0%nat, Server); (2%nat, Client)]
  else [(1%nat, Server); (2%nat, Server)].
(** main.cpp:166-170: who runs what. [None]: Drrn17Send throws (DrrnPSIMain.cpp:25). *)
Definition pirRole (idx : N) : option psiRole := if idx =? 0 then Some PsiReceiver else if idx <? 3 then Some PsiSender else None.
(** DrrnPSIMain.cpp:27 and :106, [me]: the number that a party sends first (64 bits). *)
Definition pirId (idx : N) : N := if idx =? 0 then 10021 else idx - 1 + 1010.
(** The numbers that it then expects on its two endpoints (DrrnPSIMain.cpp:79 and :138-142); a server expects one from the client only. *)
Definition pirExpects (idx : N) : list (nat * N) := if idx =? 0 then [(0%nat, 1010); (1%nat, 1011)] else [((if idx =? 1 then 0%nat else 1%nat), 10021)].

(** util.h:28-34, [getChannels(n)]: the first [n] of the channels; [None]: [begin() + n] is beyond the end. *)
Definition getChannels (chls n : nat) : option (list nat) := if (n <=? chls)%nat then Some (seq 0 n) else None.
(** main.cpp:158-159 and :248, [resize( *std::max_element(...))]; [None]: no element to dereference. *)
Definition maxThreads (ts : list nat) : option nat := match ts with [] => None | t :: ts' => Some (fold_left Nat.max ts' t) end.
