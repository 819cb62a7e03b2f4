(** Parts shared by the RR17a, RR17b and GRR18 protocols (libPSI/MPSI): phasing, bins, the receiver's OT slots, buffer release. *)
From Verif Require Import Base Partition_Model.

(** ** Phasing *)

(** [shiftRight], Rr17aMPsiReceiver.cpp:29-35 (same text in the other protocols): [_mm_srli_epi64], [_mm_srli_si128] and
    [_mm_slli_epi64] act on the two 64-bit halves; a left shift by more than 63 gives zero. *)
Definition shiftRight (v n : N) : N :=
  let lo := v mod 2 ^ 64 in
  let hi := (v / 2 ^ 64) mod 2 ^ 64 in
  let v2 := if 64 <? n then 0 else if n =? 0 then 0 else (hi * 2 ^ (64 - n)) mod 2 ^ 64 in
  N.lor (N.shiftr lo n) v2 + N.shiftr hi n * 2 ^ 64.
(** [phaseShift = u8(log2ceil(mN))], Rr17aMPsiReceiver.cpp:344, for [n > 0]. *)
Definition phase (n : nat) : N := N.log2_up (N.of_nat n).
(** Bin of a block: low 64 bits modulo the bin count, Rr17aMPsiReceiver.cpp:375. *)
Definition binOf (nb : nat) (v : N) : nat := N.to_nat (v mod 2 ^ 64 mod N.of_nat nb).

(** ** Bins *)

(** [mBins.push(addr, i)] for the items in the order [ord] in which the threads' [fetch_add]s happen (see
    SimpleHasher_Model.v). [None]: no such bin, or a full bin (write beyond
    the row). Rr17aMPsiReceiver.cpp:372-400, SimpleHasher.h:35-39. *)
Fixpoint fillBins (cap : nat) (addrs : list nat) (ord : list nat) (bins : list (list nat)) : option (list (list nat)) :=
  match ord with
  | [] => Some bins
  | i :: ord' =>
      match (addrs !! i : option nat) with
      | Some b =>
          match (bins !! b : option (list nat)) with
          | Some l => if (length l <? cap)%nat then fillBins cap addrs ord' (<[b := l ++ [i]]> bins) else None
          | None => None
          end
      | None => None
      end
  end.

(** Indices [n * t / T] .. [n * (t + 1) / T]. For example
    Rr17aMPsiReceiver.cpp:341-342, 412-413. *)
Definition idxRange (n T t : nat) : list nat :=
  let '(s, e) := evenSplit (N.of_nat n) (N.of_nat T) (N.of_nat t) in seq (N.to_nat s) (N.to_nat e - N.to_nat s).
(** The bins of thread [t] with the first OT index of each: [otIdx] grows by
    [cap] per bin. Rr17aMPsiReceiver.cpp:426-460. *)
Definition placesOf (cap nb T t : nat) : list (nat * nat * nat) :=
  imap (fun k b => (t, b, (k * cap)%nat)) (idxRange nb T t).
(** Rr17aMPsiReceiver.cpp:426-460: all threads. *)
Definition places (cap nb T : nat) : list (nat * nat * nat) := concat (map (placesOf cap nb T) (seq 0 T)).

(** ** The receiver's slots *)

(** Rr17aMPsiReceiver.cpp:439-453: the [i]th item of a bin gets slot [perm[i]] after a swap with a random later position
    ([draw i]: the 16-bit number drawn). [None]: more items than slots. *)
Fixpoint recvSlots (cap : nat) (draw : nat -> N) (i : nat) (bin : list nat) (perm : list nat) : option (list nat * list (nat * nat)) :=
  match bin with
  | [] => Some (perm, [])
  | x :: bin' =>
      if (cap <=? i)%nat then None
      else
        let k := (N.to_nat (draw i mod N.of_nat (cap - i)) + i)%nat in
        match (perm !! i : option nat), (perm !! k : option nat) with
        | Some a, Some c =>
            match recvSlots cap draw (S i) bin' (<[k := a]> (<[i := c]> perm)) with
            | Some (p, l) => Some (p, (x, c) :: l)
            | None => None
            end
        | _, _ => None
        end
  end.
(** Rr17aMPsiReceiver.cpp:419-467: one thread's bins in order; [perm] is carried over. Result: item, OT index. *)
Fixpoint recvAssign (cap : nat) (draw : nat -> nat -> N) (bins : list (list nat)) (pl : list (nat * nat * nat)) (perm : list nat)
    : option (list (nat * nat)) :=
  match pl with
  | [] => Some []
  | (_, b, base) :: pl' =>
      match (bins !! b : option (list nat)) with
      | None => None
      | Some bin =>
          match recvSlots cap (draw b) 0 bin perm with
          | None => None
          | Some (perm', l) =>
              match recvAssign cap draw bins pl' perm' with
              | None => None
              | Some r => Some (map (fun e : nat * nat => (e.1, (base + e.2)%nat)) l ++ r)
              end
          end
      end
  end.

(** ** Release of the send buffer *)

(** The shared buffer is handed to [asyncSend] chunk by chunk with a completion callback that decrements a counter and frees
    buffer and counter when it becomes zero. [Queue]: a thread queues the
    next chunk; [Complete]: the callback of a queued chunk.
    Rr17aMPsiSender.cpp:575-590, Rr17bMPsiSender.cpp:461-476. *)
Inductive bufEvent := Queue | Complete.
(** The counter and how often the buffer has been freed,
    Rr17aMPsiSender.cpp:316-317, Rr17bMPsiSender.cpp:248. *)
Record bufState := mkBufState { bsCount : N; bsFreed : nat }.
(** [preset]: the counter starts at the number of chunks (Rr17aMPsiSender.cpp:316-317, 575-590); otherwise it starts at 0 and is incremented
    before each [asyncSend] (Rr17bMPsiSender.cpp:248, 461-476). [UB]: access after the release. Counters are 32-bit. *)
Definition bufStep (preset : bool) (e : bufEvent) (s : bufState) : outcome bufState :=
  if negb (bsFreed s =? 0)%nat then UB
  else match e with
       | Queue => Done (if preset then s else mkBufState ((bsCount s + 1) mod 2 ^ 32) (bsFreed s))
       | Complete =>
           let c := (bsCount s + 2 ^ 32 - 1) mod 2 ^ 32 in
           Done (mkBufState c (if c =? 0 then S (bsFreed s) else bsFreed s))
       end.
(** Rr17aMPsiSender.cpp:316-317, Rr17bMPsiSender.cpp:248. *)
Definition bufStart (preset : bool) (chunks : N) : bufState := mkBufState (if preset then chunks mod 2 ^ 32 else 0) 0.
(** A sequence of events at Rr17aMPsiSender.cpp:575-590,
    Rr17bMPsiSender.cpp:461-476. *)
Definition bufRun (preset : bool) (chunks : N) (tr : list bufEvent) : outcome bufState :=
  foldl (fun o e => andThen o (bufStep preset e)) (Done (bufStart preset chunks)) tr.
