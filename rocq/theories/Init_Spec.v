(** Vocabulary for the set-up phase. *)
From Verif Require Import Base Init_Model.

(** The OT relation: each message is the chosen one of the pair. *)
Definition otAgree (pairs : list (N * N)) (ch : chosen) : Prop :=
  length (choiceBits ch) = length pairs /\ length (choiceMsgs ch) = length pairs /\
  forall (i : nat) (p : N * N) (b : bool) (m : N), pairs !! i = Some p -> choiceBits ch !! i = Some b -> choiceMsgs ch !! i = Some m -> m = if b then p.2 else p.1.
(** An OT protocol for every choice vector. *)
Definition correctOt (baseOt : list bool -> list (N * N) * list N) : Prop :=
  forall cs, length (baseOt cs).1 = length cs /\ otAgree (baseOt cs).1 (mkChosen cs (baseOt cs).2).
(** KOS extends exactly 128 correct base OTs to any number of correct OTs. Nothing is known about other bases. *)
Definition correctKos (kos : list (N * N) -> chosen -> list bool -> list (N * N) * list N) : Prop :=
  forall pairs ch cs, length pairs = 128%nat -> otAgree pairs ch -> length (kos pairs ch cs).1 = length cs /\ otAgree (kos pairs ch cs).1 (mkChosen cs (kos pairs ch cs).2).

(** A peer in the coin toss: its first message, and its second message after it has seen both messages of the other party. *)
Record tossPeer := mkPeer { peerFirst : N -> N; peerSecond : N -> N -> N }.
(** The seed of a party with seed [s] against it. *)
Definition tossAgainst (commit : N -> N) (s : N) (p : tossPeer) : outcome N :=
  let c := peerFirst p (firstMsg commit s) in
  hashingSeed s c (peerSecond p (firstMsg commit s) (secondMsg s c)).
(** The party of the repository as a peer: its messages do not depend on the other's. *)
Definition honestPeer (commit : N -> N) (s : N) : tossPeer := mkPeer (fun _ => firstMsg commit s) (fun c _ => secondMsg s c).
(** Sum of the sizes of the OT corrections of a thread. *)
Definition total (l : list N) : N := foldr N.add 0 l.
