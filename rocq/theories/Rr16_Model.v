(** Model of the RR16 protocol, libPSI/MPSI/Rr16/AknBfMPsiReceiver.cpp and AknBfMPsiSender.cpp.

    Simplifications for the whole file.
    - [ro seed x] is the key [toBlock(RandomOracle(seed || x))], [aes key c] AES in counter mode: arbitrary functions.
    - The approximate-k OT gives the receiver the indices of unopened zero and one choices ([mZeros], [mOnes]) and one message
      per OT, the sender both messages of each OT and the bit vector of opened OTs ([mSampled]).
    - Messages arrive complete and in order. *)
From Verif Require Import Base Partition_Model.

(** ** Hashing *)

(** Word [j] of the counter mode output, Receiver:155-166, Sender:146-157: [iv[j]]. *)
Definition word (aes : N -> N -> N) (ro : N -> N -> N) (seed x : N) (j : nat) : N :=
  let b := aes (ro seed x) (N.of_nat (j / 2)) in
  if Nat.even j then b mod 2 ^ 64 else (b / 2 ^ 64) mod 2 ^ 64.
(** Filter positions of an item, Receiver:173-183, Sender:162-164, for a buffer [bv] that no other thread writes. *)
Definition filterPos (aes : N -> N -> N) (ro : N -> N -> N) (seed m : N) (nh : nat) (x : N) : list N :=
  map (fun j => word aes ro seed x j mod m) (seq 0 nh).

(** ** Permutation *)

(** [bf[idx] = 1], Receiver:183. [None]: out of range. *)
Fixpoint setBits (ps : list N) (bf : list bool) : option (list bool) :=
  match ps with
  | [] => Some bf
  | p :: ps' => match writeN bf p true with Some bf' => setBits ps' bf' | None => None end
  end.

(** Receiver:219-237: zeros and ones are taken in order; once the zeros are used up every position gets a one. Entries are cut
    to 32 bits. [None]: reading past the ones. *)
Fixpoint buildPerm (bf : list bool) (zeros ones : list N) : option (list N) :=
  match bf with
  | [] => Some []
  | b :: bf' =>
      match zeros with
      | z :: zeros' =>
          if b then match ones with
                    | o :: ones' => match buildPerm bf' zeros ones' with Some l => Some (o mod 2 ^ 32 :: l) | None => None end
                    | [] => None
                    end
          else match buildPerm bf' zeros' ones with Some l => Some (z mod 2 ^ 32 :: l) | None => None end
      | [] => match ones with
              | o :: ones' => match buildPerm bf' [] ones' with Some l => Some (o mod 2 ^ 32 :: l) | None => None end
              | [] => None
              end
      end
  end.

(** ** Receiver's masks *)

(** Receiver:282-330, the XOR of the messages at the permuted positions (taken two at a time in the code). *)
Fixpoint recvMask (msgs perm : list N) (ps : list N) (mask : N) : option N :=
  match ps with
  | [] => Some mask
  | p :: ps' =>
      match readN perm p with
      | Some i => match readN msgs i with Some b => recvMask msgs perm ps' (N.lxor mask b) | None => None end
      | None => None
      end
  end.

(** [localMasks.emplace] and [masks.insert], Receiver:332, 345-352: keyed by the low 64 bits, existing entries stay. *)
Definition maskInsert (m : list (N * nat)) (e : N * nat) : list (N * nat) :=
  if bool_decide (e.1 ∈ m.*1) then m else m ++ [e].
(** Insertion of the entries of one thread into [localMasks].
    AknBfMPsiReceiver.cpp:332. *)
Definition localMap (es : list (N * nat)) : list (N * nat) := foldl maskInsert [] es.
(** Receiver:339-365: the threads' maps are merged in the order in which the threads finish. *)
Definition mergeMaps (maps : list (list (N * nat))) (order : list nat) : list (N * nat) :=
  foldl maskInsert [] (concat (map (fun t => default [] (maps !! t)) order)).

(** Receiver:372-389: the positions found by one thread. Only the key is compared. *)
Definition findMasks (m : list (N * nat)) (theirs : list N) : list N :=
  omap (fun y => match list_find (fun e => e.1 = y mod 2 ^ 64) m with Some (_, (_, i)) => Some (N.of_nat i) | None => None end) theirs.

(** ** Sender *)

(** Sender:141-171. [mMessages[pIdx][1]]. *)
Fixpoint sendMask (msgs : list (N * N)) (perm : list N) (ps : list N) (mask : N) : option N :=
  match ps with
  | [] => Some mask
  | p :: ps' =>
      match readN perm p with
      | Some i => match readN msgs i with Some b => sendMask msgs perm ps' (N.lxor mask b.2) | None => None end
      | None => None
      end
  end.

(** The promise [isValidPerm]: not yet set, or its value. Setting it twice
    throws [std::future_error]. AknBfMPsiSender.cpp:105-106,
    AknBfMPsiReceiver.cpp:365. *)
Definition setPromise (p : option bool) (v : bool) : outcome (option bool) :=
  match p with None => Done (Some v) | Some _ => Thrown p end.
(** Sender:210-220: the check loop. [UB]: an entry beyond the bit vector. The loop ends by [break] at the first used entry. *)
Fixpoint checkPerm (perm : list N) (used : list bool) (p : option bool) : outcome (option bool) :=
  match perm with
  | [] => Done p
  | i :: perm' =>
      match readN used i with
      | None => UB
      | Some true => setPromise p false
      | Some false => checkPerm perm' (<[N.to_nat i := true]> used) p
      end
  end.
(** Sender:210-222: afterwards the promise is set to true in any case. *)
Definition validate (perm : list N) (sampled : list bool) : outcome (option bool) :=
  andThen (checkPerm perm sampled None) (fun p => setPromise p true).

(** Sender:83-226: the masks each of the [T] threads sends; the threads wait for the promise (:181) and send only if it is true.
    Result: the messages per thread ([None]: thread sends nothing) and how [sendInput] ends. A thread reads the messages before the
    check ends; an index out of range is [UB]. *)
Definition idxRange (n T t : nat) : list nat :=
  let '(s, e) := evenSplit (N.of_nat n) (N.of_nat T) (N.of_nat t) in seq (N.to_nat s) (N.to_nat e - N.to_nat s).
(** AknBfMPsiSender.cpp:124-192: the masks of the items [idx]. *)
Definition senderThread (aes : N -> N -> N) (ro : N -> N -> N) (seed m : N) (nh : nat) (msgs : list (N * N)) (perm S : list N)
    (idx : list nat) : option (list N) :=
  mapM (fun i => match S !! i with Some x => sendMask msgs perm (filterPos aes ro seed m nh x) 0 | None => None end) idx.
(** AknBfMPsiSender.cpp:83-262. *)
Definition senderRun (aes : N -> N -> N) (ro : N -> N -> N) (seed : N) (m nh T n : nat) (msgs : list (N * N)) (sampled : list bool)
    (S perm : list N) : outcome (option (list (list N))) :=
  if negb (length S =? n)%nat || negb (length perm =? m)%nat then Thrown None
  else match mapM (fun t => senderThread aes ro seed (N.of_nat m) nh msgs perm S (idxRange n T t)) (seq 0 T) with
       | None => UB
       | Some masks =>
           match validate perm sampled with
           | Done (Some true) => Done (Some masks)
           | Done _ => Done None
           | Thrown (Some true) => Thrown (Some masks)
           | Thrown _ => Thrown None
           | UB => UB
           | OutOfFuel => OutOfFuel
           end
       end.

(** ** Receiver *)

(** Receiver:98-368: what is kept ([masks] after the merge in order [mergeOrd]) and the permutation sent. *)
Definition recvFirst (aes : N -> N -> N) (ro : N -> N -> N) (seed : N) (m nh T n : nat) (total : N) (zeros ones msgs : list N)
    (R : list N) (mergeOrd : list nat) : outcome (list N * list (N * nat)) :=
  if negb (length R =? n)%nat then Thrown ([], [])
  else if 2 ^ 32 <? total then Thrown ([], [])   (* [sizeof(LogOtCount_t) * 8 < ceil(log2(mTotalOtCount))] *)
  else match setBits (concat (map (filterPos aes ro seed (N.of_nat m) nh) R)) (replicate m false) with
       | None => UB
       | Some bf =>
           match buildPerm bf zeros ones with
           | None => UB
           | Some perm =>
               match mapM (fun t => mapM (fun i => match R !! i with
                                                   | Some x => match recvMask msgs perm (filterPos aes ro seed (N.of_nat m) nh x) 0 with
                                                               | Some k => Some (k mod 2 ^ 64, i)
                                                               | None => None
                                                               end
                                                   | None => None
                                                   end) (idxRange n T t)) (seq 0 T) with
               | None => UB
               | Some es => Done (perm, mergeMaps (map localMap es) mergeOrd)
               end
           end
       end.
(** Receiver:371-401: the threads append their results in the order [outOrd]. *)
Definition recvSecond (m : list (N * nat)) (theirs : list (list N)) (outOrd : list nat) (old : list N) : list N :=
  old ++ concat (map (fun t => findMasks m (default [] (theirs !! t))) outOrd).

(** Both parties, each with its own scratch buffer per thread (for the
    shared buffer see below). AknBfMPsiReceiver.cpp:98-426,
    AknBfMPsiSender.cpp:83-262. *)
Definition rr16Run (aes : N -> N -> N) (ro : N -> N -> N) (seed : N) (m nh T n : nat) (total : N) (zeros ones rmsgs : list N)
    (smsgs : list (N * N)) (sampled : list bool) (R S : list N) (mergeOrd outOrd : list nat) (old : list N) : outcome (list N) :=
  match recvFirst aes ro seed m nh T n total zeros ones rmsgs R mergeOrd with
  | Done (perm, mp) =>
      match senderRun aes ro seed m nh T n smsgs sampled S perm with
      | Done (Some theirs) => Done (recvSecond mp theirs outOrd old)
      | Done None => Thrown old   (* nothing arrives *)
      | Thrown _ => Thrown old
      | UB => UB
      | OutOfFuel => OutOfFuel
      end
  | Thrown _ => Thrown old
  | UB => UB
  | OutOfFuel => OutOfFuel
  end.

(** ** The shared scratch buffer *)

(** [bv] is declared outside the thread routine (Receiver:136, Sender:110) and captured by reference. One thread's accesses for an
    item: write the [nb] blocks of the counter mode output (Receiver:165, Sender:156), then read the words. *)
Inductive op := WriteBlock (c : nat) (v : N) | ReadWord (j : nat).
(** AknBfMPsiReceiver.cpp:165-180, AknBfMPsiSender.cpp:156-164. *)
Definition itemOps (aes : N -> N -> N) (ro : N -> N -> N) (seed : N) (nh : nat) (x : N) : list op :=
  map (fun c => WriteBlock c (aes (ro seed x) (N.of_nat c))) (seq 0 ((nh + 1) / 2)) ++ map ReadWord (seq 0 nh).
(** The shared buffer, the accesses left and the words read by each thread:
    AknBfMPsiReceiver.cpp:136, AknBfMPsiSender.cpp:110. *)
Record hashState := mkHashState { hsBuf : list N; hsOps : list (list op); hsOut : list (list N) }.
(** [iv[j]] of the buffer. AknBfMPsiReceiver.cpp:166, 180,
    AknBfMPsiSender.cpp:157, 164. *)
Definition bufWord (buf : list N) (j : nat) : N :=
  let b := default 0 (buf !! (j / 2)%nat) in if Nat.even j then b mod 2 ^ 64 else (b / 2 ^ 64) mod 2 ^ 64.
(** One access of thread [t]. AknBfMPsiReceiver.cpp:165-180,
    AknBfMPsiSender.cpp:156-164. *)
Definition hashStep (m : N) (t : nat) (s : hashState) : hashState :=
  match hsOps s !! t with
  | Some (WriteBlock c v :: rest) => mkHashState (<[c := v]> (hsBuf s)) (<[t := rest]> (hsOps s)) (hsOut s)
  | Some (ReadWord j :: rest) =>
      mkHashState (hsBuf s) (<[t := rest]> (hsOps s)) (<[t := default [] (hsOut s !! t) ++ [bufWord (hsBuf s) j mod m]]> (hsOut s))
  | _ => s
  end.
(** A schedule of accesses, AknBfMPsiReceiver.cpp:165-180,
    AknBfMPsiSender.cpp:156-164. *)
Definition hashRun (m : N) (sched : list nat) (s : hashState) : hashState := foldl (fun s t => hashStep m t s) s sched.
(** Before the threads start, AknBfMPsiReceiver.cpp:136,
    AknBfMPsiSender.cpp:110. *)
Definition hashStart (aes : N -> N -> N) (ro : N -> N -> N) (seed : N) (nh : nat) (buf : list N) (inputs : list (list N)) : hashState :=
  mkHashState buf (map (fun l => concat (map (itemOps aes ro seed nh) l)) inputs) (map (fun _ => []) inputs).

(** ** Parameters *)

(** [computeAknBfParams] for [kappa = 40], Receiver:482-666: total OTs, ones, threshold for opened ones, hash functions, filter bits.
    The sampling probability and the computation for other arguments (floating point) are left out. *)
Definition aknTable : list (N * (N * N * N * N * N)) :=
  [(1, (8295, 517, 138, 94, 7196));
   (4, (8295, 517, 138, 94, 7196));
   (8, (10663, 959, 204, 94, 9296));
   (16, (14715, 1829, 323, 94, 12896));
   (32, (21762, 3549, 540, 94, 19172));
   (64, (34286, 6961, 944, 94, 30350));
   (128, (57068, 13743, 1711, 94, 50726));
   (256, (99372, 27246, 3182, 94, 88627));
   (512, (179281, 54101, 5973, 94, 160506));
   (1024, (331450, 105905, 9648, 94, 302436));
   (2048, (623180, 207952, 15440, 94, 578306));
   (4096, (1187141, 407982, 22958, 94, 1121959));
   (8192, (2285265, 790117, 36452, 92, 2181857));
   (16384, (4434188, 1582849, 59137, 93, 4270964));
   (32768, (8658560, 3073716, 91828, 91, 8402960));
   (65536, (16992857, 6113957, 150181, 91, 16579297));
   (131072, (33479820, 12162968, 235416, 91, 32836550));
   (262144, (66165163, 23957707, 364747, 90, 65163755));
   (524288, (131108816, 47283348, 621716, 89, 129392705));
   (1048576, (260252093, 95333932, 962092, 90, 257635123));
   (2097152, (517435654, 188162824, 1516296, 89, 513277951));
   (4194304, (1030082690, 371340163, 2241411, 88, 1023879938));
   (8388608, (2052497778, 758786092, 3811372, 90, 2042206617))].
