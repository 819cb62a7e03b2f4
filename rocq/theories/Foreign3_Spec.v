(** Statements about the result of a PIR-PSI client and about messages of prescribed sizes. *)
From Verif Require Import Base.

(** Every reported position is one of the client's items, none is reported twice, and each has a received mask: an OPRF value, cut to [ms] bytes, of the item
    masked with one of the client's blocks [r]. *)
Definition setEarned (F : N -> N -> N) (ms : N) (r : list N) (inputs received : list N) (out : list nat) : Prop :=
  NoDup out /\ forall i, i ∈ out -> exists x a b m, inputs !! i = Some x /\ a ∈ r /\ m ∈ received /\ m = F b (N.lxor a x) mod 256 ^ ms.

(** The messages of a KKRT sender with [nS] items have the prescribed sizes: three masks for each of up to [step] items per message. *)
Definition rightSizes (step nS : nat) (msgs : list (list N)) : Prop :=
  forall i, (i * step < nS)%nat -> exists msg, msgs !! i = Some msg /\ length msg = (3 * Nat.min (nS - i * step) step)%nat.

(** The received positions lie in the received table and no other received vector is shorter than the shares. *)
Definition longEnough (shares : list N) (pi0 : list nat) (piS0 rs msg1 : list N) : Prop :=
  (forall q, q ∈ pi0 -> (q < length rs)%nat) /\ (length shares <= length piS0)%nat /\ (length shares <= length msg1)%nat.
