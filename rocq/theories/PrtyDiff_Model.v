(** Model of the masks as differences in PRTY, libPSI/PSI/Prty/PrtyReceiver.cpp ("Receiver") and PrtySender.cpp ("Sender"), the functions [outputBestComm]
    and [outputBigPoly], from the masks on.

    [h] is [hashMaskBytes] and [b] is [n1n2MaskBytes]. Buffers are lists of bytes, blocks are numbers below 2^128. [log2] and the product with 1.02 are exact. *)
From Verif Require Import Base Partition_Model Ecdh_Model File_Model File_Spec Balanced_Model Prty_Model.
Local Open Scope nat_scope.

(** Receiver:314, 616; Sender:381-382, 747-748 (there [log2] is cut before the addition of 7, with the same result). [n1]: the receiver's number of items. *)
Definition hBytes (n1 : N) : nat := N.to_nat ((49 + N.log2 n1) / 8)%N.
(** Receiver:315-316, 618-619; Sender:384-385, 751-752. *)
Definition bBytes (n1 n2 : N) : nat := N.to_nat ((40 + N.log2 (n1 * n2) + 7) / 8)%N.
(** [operator+] and [operator-] of blocks: on the two halves. [operator+] of
    cryptoTools, used at PrtyReceiver.cpp:562, 965. *)
Definition addBlk (x y : N) : N := lanes ((x mod two64 + y mod two64) mod two64) ((x / two64 + y / two64) mod two64).
(** [operator-] of cryptoTools, used at PrtySender.cpp:679, 1041. *)
Definition subBlk (x y : N) : N := lanes ((x mod two64 + two64 - y mod two64) mod two64) ((x / two64 + two64 - y / two64) mod two64).
(** [memcmp(...) < 0]. [memcmp(..) < 0], PrtySender.cpp:639, 681, 998, 1043. *)
Fixpoint bytesLt (x y : list N) : bool :=
  match x, y with a :: x', c :: y' => if (a <? c)%N then true else if (a =? c)%N then bytesLt x' y' else false | _, _ => false end.
(** Sender:658-660, 1006-1008. *)
Definition boundDiff (h : nat) : N := foldr N.lxor 0%N (map oneBlk (seq 0 (8 * h))).

(** [memcpy] into a buffer. [None]: beyond its end. [memcpy] into the
    buffer, PrtySender.cpp:667, 684, 691-694, 1034, 1046, 1053-1056. *)
Definition poke (buf : list N) (off : nat) (bs : list N) : option (list N) :=
  if off + length bs <=? length buf then Some (take off buf ++ bs ++ drop (off + length bs) buf) else None.
(** Sender:677-708, 1037-1067: the differences of consecutive masks. The branch of Sender:697-701, 1059-1063 would make the buffer longer after a write beyond its
    end; such a write is [None] here. *)
Fixpoint encLoop (h b : nat) (prev : N) (ms : list N) (buf : list N) (iter : nat) : option (list N) :=
  match ms with
  | [] => Some buf
  | m :: ms' =>
      let diff := subBlk m prev in
      if bytesLt (bytesLE h diff) (bytesLE h (boundDiff h)) then
        match poke buf iter (bytesLE h diff) with Some buf1 => encLoop h b m ms' buf1 (iter + h) | None => None end
      else
        match poke buf iter (replicate h 0%N) with
        | Some buf1 => match poke buf1 (iter + h) (bytesLE b m) with Some buf2 => encLoop h b m ms' buf2 (iter + h + b) | None => None end
        | None => None
        end
  end.
(** One message, from the masks [ms] and a new buffer of [size] bytes: Sender:653-713, 1030-1071. *)
Definition encode (h b size : nat) (ms : list N) : outcome (list N) :=
  match ms with
  | [] => UB
  | m :: ms' =>
      match poke (replicate size 0%N) 0 (bytesLE b m) with
      | None => UB
      | Some buf => match encLoop h b m ms' buf b with Some buf' => Done buf' | None => UB end
      end
  end.
(** Sender:653, 1030: 1.02 times the number [n] of masks (Sender:1030: of differences) and the bytes of a difference. *)
Definition bufSize (n h : nat) : nat := N.to_nat (102 * N.of_nat n * N.of_nat h / 100)%N.
(** Sender:649-713, [outputBestComm]: the message of one hash number; [ms]: the masks in the order of the sort. *)
Definition sendBest (h b : nat) (ms : list N) : outcome (list N) := encode h b (bufSize (length ms) h) ms.

(** Sender:1015-1071, [outputBigPoly]: the steps of thread [t] of [T] for [n] masks, as pairs of the first position and the number of differences.
    [None]: [endIdx - 1] with [endIdx = 0]. *)
Fixpoint stepsFrom (fuel step e i : nat) : list (nat * nat) :=
  match fuel with
  | O => []
  | S f => if i <? e - 1 then (i, Nat.min step (e - 1 - i)) :: stepsFrom f step e (i + step) else []
  end.
(** PrtySender.cpp:1014-1027. *)
Definition diffSteps (step n T t : nat) : option (list (nat * nat)) :=
  let s := n * t / T in let e := Nat.min (n * (t + 1) / T) n in if e =? 0 then None else Some (stepsFrom (e - s) step e s).
(** PrtySender.cpp:1010-1072: the messages of one thread. *)
Definition sendBig (h b step T t : nat) (ms : list N) : outcome (list (list N)) :=
  match diffSteps step (length ms) T t with
  | None => UB
  | Some ss =>
      foldr (fun p acc => match encode h b (bufSize p.2 h) (take (p.2 + 1) (drop p.1 ms)), acc with Done m, Done l => Done (m :: l) | Thrown _, _ => Thrown [] | _, Thrown _ => Thrown [] | _, _ => UB end)
        (Done []) ss
  end.

(** [memcpy] of [k] bytes into a block keeps its other bytes.
    PrtyReceiver.cpp:554-557, 577, 957-977. *)
Definition overlay (k : nat) (new old : N) : N := (new + 2 ^ (8 * N.of_nat k) * (old / 2 ^ (8 * N.of_nat k)))%N.
(** Receiver:521-575, 926-978: the loop over the differences; [rd off k]: [k] bytes of the message ([None]: beyond its end). The result lists the masks that are
    looked up, each with the number of bytes that are compared. *)
Fixpoint decLoop (fuel size h b : nat) (rd : nat -> nat -> option N) (mask diff : N) (over : bool) (iter : nat) : outcome (list (N * nat)) :=
  match fuel with
  | O => OutOfFuel
  | S f =>
      if iter <? size then
        let next :=
          if (low h diff =? 0)%N then
            match rd (iter + h) b, rd (iter + h + b) b with
            | Some m', Some d' => decLoop f size h b rd (overlay b m' mask) (overlay b d' diff) true (iter + h + b)
            | _, _ => UB
            end
          else
            match rd (iter + h) h with
            | Some d' => decLoop f size h b rd (addBlk diff mask) (overlay h d' diff) false (iter + h)
            | None => UB
            end in
        match next with Done vs => Done ((mask, if over then b else h) :: vs) | o => o end
      else Done []
  end.
(** Receiver:505-519, 910-924; [g1], [g2]: the bytes that are not initialised. *)
Definition decode (size h b : nat) (rd : nat -> nat -> option N) (g1 g2 : N) : outcome (list (N * nat)) :=
  match rd 0 b, rd b b with
  | Some m, Some d => decLoop (S size) size h b rd (overlay b m g1) (overlay b d g2) true b
  | _, _ => UB
  end.
(** The message alone, or the message in the memory around it.
    PrtyReceiver.cpp:494-582, 892-983. *)
Definition decodeStrict (h b : nat) (g1 g2 : N) (buf : list N) : outcome (list (N * nat)) := decode (length buf) h b (peek buf) g1 g2.
(** A read of [k] bytes, PrtyReceiver.cpp:502-508, 554-577, from memory
    [mem] without an end. *)
Definition peekMem (mem : nat -> N) (off k : nat) : option N := Some (leBytes (map mem (seq off k))).

(** Receiver:329, 449-457, 622, 683-690, [localMasks]: keyed by the first four bytes. *)
Definition key32 (x : N) : N := (x mod 2 ^ 32)%N.
(** PrtyReceiver.cpp:449-457, 683-690. *)
Fixpoint emplace32 (l m : list (N * nat)) : list (N * nat) :=
  match l with
  | [] => m
  | e :: l' => emplace32 l' (if existsb (fun e' => key32 e'.1 =? key32 e.1)%N m then m else m ++ [e])
  end.
(** Receiver:524-545, 929-950: the positions that are reported. *)
Fixpoint lookups (m : list (N * nat)) (vs : list (N * nat)) : list nat :=
  match vs with
  | [] => []
  | (x, k) :: vs' =>
      match find (fun e => key32 e.1 =? key32 x)%N m with
      | Some e => if (low k x =? low k e.1)%N then e.2 :: lookups m vs' else lookups m vs'
      | None => lookups m vs'
      end
  end.
