(** Vocabulary of the statement that the receiver of RR17a learns the common items and nothing else.

    The encodings of the OTs where the receiver chooses are the values of one function [w] on the triples of a channel, an OT and an OT input.
    The receiver has the values at its choices. It has every encoding of the OTs where the sender chooses. *)
From Verif Require Import Base Rr17_Model Rr17a_Model.

(** [P] with these encodings. *)
Definition withEncR (P : params) (w : nat * nat * N -> N) : params :=
  mkParams (pHash P) (pAes P) (pN P) (pNb P) (pCap P) (pMask P) (pT P) (fun t i v => w (t, i, v)) (pEncS P).
(** The OT number [i] of channel [t] is one of those of the bin of [x]. *)
Definition otOf (P : params) (x : N) (t i : nat) : Prop :=
  exists base, (t, itemBin P x, base) ∈ places (pCap P) (pNb P) (pT P) /\ (base <= i < base + pCap P)%nat.
(** The receiver's choices [K] are no encodings of items of [l] other than its own items [R]. *)
Definition choosesOwn (P : params) (K : list (nat * nat * N)) (R l : list N) : Prop :=
  forall t i x, (t, i, nco P x) ∈ K -> x ∈ l -> otOf P x t i -> x ∈ R.
(** Different items of a bin have different OT inputs. *)
Definition distinctInputs (P : params) (l : list N) : Prop := forall x y, x ∈ l -> y ∈ l -> itemBin P x = itemBin P y -> nco P x = nco P y -> x = y.
(** The choices of the receiver with the items [R]: the OT inputs of its items in the OTs it assigns to them ([recvAssign] as in
    [Rr17a_Model.rr17aRun]). *)
Definition choices (P : params) (rd : rand) (R : list N) : option (list (nat * nat * N)) :=
  match mkBins P R (rOrdR rd) with
  | Some bins =>
      match mapM (fun t => recvAssign (pCap P) (rDraw rd) bins (placesOf (pCap P) (pNb P) (pT P) t) (seq 0 (pCap P))) (seq 0 (pT P)) with
      | Some asg => Some (concat (imap (fun t a => map (fun e : nat * nat => (t, e.2, default 0 (map (nco P) R !! e.1))) a) asg))
      | None => None
      end
  | None => None
  end.
