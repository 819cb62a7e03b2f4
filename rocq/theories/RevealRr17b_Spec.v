(** Vocabulary of the statement that the receiver of RR17b learns the common items and nothing else.

    The encodings are the values of one function [w] on the triples of a channel, an OT and an OT input, the commitments the values of one function
    [c] on the pairs of an item and a decommitment value. The receiver has the encodings at its choices and can compute commitments to its items. *)
From Verif Require Import Base Rr17_Model Rr17b_Model.

(** [P] with these encodings and commitments. *)
Definition withFns (P : params) (w : nat * nat * N -> N * N) (c : N -> N -> N) : params :=
  mkParams (pHash P) (pRo P) (pAes P) (pN P) (pNb P) (pCap P) (pMask P) (pT P) (fun t i v => w (t, i, v)) c.
(** Tags have 4 bytes, keys 16, commitments 20. *)
Definition sizesOk (w : nat * nat * N -> N * N) (c : N -> N -> N) : Prop := (forall a, (w a).1 < 2 ^ 32 /\ (w a).2 < 2 ^ 128) /\ forall x r, c x r < 2 ^ 160.
(** The OT number [i] of channel [t] is one of those the sender uses for the bin of [x]. *)
Definition otOf (P : params) (x : N) (t i : nat) : Prop :=
  exists base, (t, itemBin P x, base) ∈ sendPlaces (pCap P) (pNb P) (pT P) /\ (base <= i < base + pCap P)%nat.
(** The receiver's choices [K] are no encodings of items of [l] other than its own items [R]. *)
Definition choosesOwn (P : params) (K : list (nat * nat * N)) (R l : list N) : Prop :=
  forall t i x, (t, i, otInput P x) ∈ K -> x ∈ l -> otOf P x t i -> x ∈ R.
(** Different items of a bin have different OT inputs. *)
Definition distinctInputs (P : params) (l : list N) : Prop := forall x y, x ∈ l -> y ∈ l -> itemBin P x = itemBin P y -> otInput P x = otInput P y -> x = y.
(** The choices of the receiver with the items [R], as in [Rr17b_Model.rr17bRun]. *)
Definition choices (P : params) (rd : rand) (R : list N) : option (list (nat * nat * N)) :=
  match mkBins P R (rOrdR rd) with
  | Some bins =>
      match mapM (fun t => recvAssign (pCap P) (rDraw rd) bins (placesOf (pCap P) (pNb P) (pT P) t) (seq 0 (pCap P))) (seq 0 (pT P)) with
      | Some asg => Some (concat (imap (fun t a => map (fun e : nat * nat => (t, e.2, otInput P (default 0 (R !! e.1)))) a) asg))
      | None => None
      end
  | None => None
  end.
