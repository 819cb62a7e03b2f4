(** Model of the Diffie-Hellman PSI, libPSI/PSI/ECDH/EcdhPsiReceiver.cpp and EcdhPsiSender.cpp.

    Simplifications for the whole file.
    - Points, scalar multiplication [smul], hashing to the curve [pt] ([point.randomize(seed)]), the byte representation
      [enc]/[dec] of a point, the random oracle on items [roItem outLen] (output length in bytes) and on point bytes with
      16-byte output [roPoint] are arbitrary functions; [hashSize] is [RandomOracle::HashSize].
    - A block is a number, byte 0 lowest.
    - [log2] is exact (the program uses double).
    - Messages arrive complete and in order; an exception in a thread (the program then terminates) is [Thrown]. *)
From Verif Require Import Base Partition_Model.

Section Ecdh.
Context {P : Type}.
Variable (smul : P -> N -> P) (pt : N -> P) (enc : P -> N) (dec : N -> P).
Variable (roItem : nat -> N -> N) (roPoint : N -> N) (hashSize : nat).

(** [u64(40 + 2*log2(n) + 7) / 8], Receiver:47, Sender:41. *)
Definition maskBytes (n : nat) : N := (47 + N.log2 (N.of_nat n * N.of_nat n)) / 8.

(** Positions [inputStartIdx .. inputEndIdx), Receiver:58-59 and 175-176, Sender:53-54. *)
Definition idxRange (n T t : nat) : list nat :=
  let '(s, e) := evenSplit (N.of_nat n) (N.of_nat T) (N.of_nat t) in seq (N.to_nat s) (N.to_nat e - N.to_nat s).

(** The inputs of one thread; [None]: out of range.
    EcdhPsiReceiver.cpp:58-60, EcdhPsiSender.cpp:53-55. *)
Definition inputsAt (l : list N) (idx : list nat) : option (list N) := mapM (fun i => l !! i) idx.

(** Receiver:89-110: [H(y)^b]. The hash output is cut to a block. *)
Definition recvPoint (b y : N) : N := enc (smul (pt (roItem hashSize y mod 2 ^ 128)) b).
(** Sender:83-101: [H(x)^a]. *)
Definition sendPoint (a x : N) : N := enc (smul (pt (roItem 16 x)) a).
(** Receiver:127-136: the block of [H(x)^a^b]. *)
Definition recvBlock (b m : N) : N := roPoint (enc (smul (dec m) b)).
(** Sender:116-126: the [maskSizeByte] bytes sent for [H(y)^b^a]. *)
Definition sendMask (ms a m : N) : N := roPoint (enc (smul (dec m) a)) mod 2 ^ (8 * ms).

(** [mapXab.insert({idx, blk})], Receiver:137-156: does nothing when the key is present. *)
Definition mapInsert (m : list (N * N)) (blk : N) : list (N * N) :=
  if bool_decide (blk mod 2 ^ 32 ∈ m.*1) then m else m ++ [(blk mod 2 ^ 32, blk)].

(** The order of the insertions of several threads (Receiver:148-152 holds a mutex): [sched] names the thread that makes
    the next insertion. [None]: not all insertions are made, or a thread without a next insertion is named. *)
Fixpoint interleave (sched : list nat) (qs : list (list N)) : option (list N) :=
  match sched with
  | [] => if forallb (fun q => match q with [] => true | _ => false end) qs then Some [] else None
  | t :: sched' =>
      match qs !! t with
      | Some (x :: q) => match interleave sched' (<[t := q]> qs) with Some l => Some (x :: l) | None => None end
      | _ => None
      end
  end.

(** Receiver:194-221: the positions reported by one thread. *)
Definition matchThread (ms : N) (m : list (N * N)) (idx : list nat) (masks : list N) : list N :=
  omap (fun im : nat * N =>
          match list_find (fun e => e.1 = im.2 mod 2 ^ 32) m with
          | Some (_, (_, blk)) => if im.2 =? blk mod 2 ^ (8 * ms) then Some (N.of_nat im.1) else None
          | None => None
          end) (zip idx masks).

(** First messages of the [T] threads of a party, and [checked]: the receiving side's length check (Receiver:119-123, 186-190,
    Sender:107-111) against its own ranges. *)
Definition checked (n T : nat) (msgs : list (list N)) : bool :=
  forallb (fun t => match msgs !! t with Some m => (length m =? length (idxRange n T t))%nat | None => false end) (seq 0 T).

(** Both parties' [sendInput]: the receiver's [mIntersection], which was [old]. [a], [b]: the parties' secret scalars, the
    same in all threads (Receiver:49, 76, Sender:47, 68). [OutOfFuel]: [sched] is not a complete schedule. *)
Definition ecdhRun (T : nat) (a b : N) (R S : list N) (sched : list nat) (old : list N) : outcome (list N) :=
  let n := length R in
  let n' := length S in
  if (T =? 0)%nat then Thrown old   (* [localIntersections(chls.size() - 1)] *)
  else if (n =? 0)%nat || (n' =? 0)%nat then UB   (* conversion of [log2(0)] *)
  else if (16 <? maskBytes n) || (16 <? maskBytes n') then UB   (* [memcpy]/[memcmp] beyond the block *)
  else
  match mapM (fun t => inputsAt R (idxRange n T t)) (seq 0 T), mapM (fun t => inputsAt S (idxRange n' T t)) (seq 0 T) with
  | Some rin, Some sin =>
      let yb := map (map (recvPoint b)) rin in
      let xa := map (map (sendPoint a)) sin in
      if negb (checked n T xa) || negb (checked n' T yb) then Thrown old
      else match interleave sched (map (map (recvBlock b)) xa) with
           | None => OutOfFuel
           | Some blks =>
               let m := foldl mapInsert [] blks in
               let masks := map (map (sendMask (maskBytes n') a)) yb in
               if negb (maskBytes n =? maskBytes n') then Thrown old   (* size check Receiver:186-190 *)
               else Done (old ++ concat (map (fun t => matchThread (maskBytes n) m (idxRange n T t) (default [] (masks !! t))) (seq 0 T)))
           end
  | _, _ => UB
  end.

(** [init], Receiver:25-31, clears the output. *)
Definition ecdhInit (old : list N) : list N := [].
End Ecdh.
