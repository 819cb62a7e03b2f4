(** Vocabulary of the statements about RR16. *)
From Verif Require Import Base Rr16_Model.

(** Number of set bits. *)
Definition countOnes (bf : list bool) : nat := length (filter (fun b => b = true) bf).
(** XOR of the messages with the permuted positions as indices. *)
Definition xorPerm (msg : N -> N) (perm ps : list N) : N :=
  foldr (fun p a => N.lxor (msg (default 0 (perm !! N.to_nat p))) a) 0 ps.
(** Message [i] of a list of messages. *)
Definition recvMsg (msgs : list N) (i : N) : N := default 0 (msgs !! N.to_nat i).
Definition sendMsg (msgs : list (N * N)) (i : N) : N := (default (0, 0) (msgs !! N.to_nat i)).2.
(** The OTs: the unopened choices are distinct indices of existing OTs, and for a one-choice the receiver holds the
    sender's second message. *)
Definition otsOk (zeros ones rmsgs : list N) (smsgs : list (N * N)) (sampled : list bool) : Prop :=
  NoDup (zeros ++ ones) /\ length rmsgs = length smsgs /\ length sampled = length smsgs /\ N.of_nat (length smsgs) <= 2 ^ 32 /\
  (forall i, i ∈ zeros ++ ones -> sampled !! N.to_nat i = Some false) /\
  (forall i, i ∈ ones -> recvMsg rmsgs i = sendMsg smsgs i).
