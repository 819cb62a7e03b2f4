(** Vocabulary of the statements about what the permutation of RR16 shows to the sender. *)
From Verif Require Import Base Rr16_Model.

(** The outcome of the OTs: the unopened OTs [I] in some order, [k0] of them with choice zero, [k1] with choice one. *)
Definition choicesOf (I : list N) (k0 k1 : nat) (c : list N * list N) : Prop := c.1 ++ c.2 ≡ₚ I /\ length c.1 = k0 /\ length c.2 = k1.
(** The messages the receiver then holds: the second message for the choice one, else the first. *)
Definition heldMsgs (smsgs : list (N * N)) (ones : list N) : list N :=
  imap (fun i m => if bool_decide (N.of_nat i ∈ ones) then m.2 else m.1) smsgs.
(** The sender's test of an item against a permutation: at the positions of the item, the entries increase with the position. *)
Definition increasesAt (perm : list N) (ps : list N) : Prop :=
  forall p q i j, p ∈ ps -> q ∈ ps -> p < q -> perm !! N.to_nat p = Some i -> perm !! N.to_nat q = Some j -> i < j.
