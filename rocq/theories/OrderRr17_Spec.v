(** Vocabulary: what the receiver of RR17b and of RR17a recognises in the sender's rows. *)
From Verif Require Import Base File_Model Rr17_Model.
From Verif Require Rr17a_Model Rr17b_Model.

(** RR17b: the sender's rows as they are sent, the steps of [Rr17b_Model.rr17bRun] up to the buffer. *)
Definition sentB (P : Rr17b_Model.params) (rd : Rr17b_Model.rand) (S : list N) : option (list (list N)) :=
  match Rr17b_Model.mkBins P S (Rr17b_Model.rOrdS rd) with
  | Some bins => Rr17b_Model.writeRows (Rr17b_Model.sendWrites P rd S bins) (replicate (Rr17b_Model.pN P) (replicate (Rr17b_Model.setSize (Rr17b_Model.pCap P)) 0))
  | None => None
  end.
(** A row that opens with an encoding of one of the receiver's items: in some slot the tag is that of the encoding and the commitment
    opens to the item. *)
Definition opens (P : Rr17b_Model.params) (R : list N) (row : list N) : Prop :=
  exists x t s l, x ∈ R /\ (l < Rr17b_Model.pCap P)%nat /\
    let e := Rr17b_Model.pEnc P t s (Rr17b_Model.otInput P x) in
    leBytes (take 4 (drop (20 + 20 * l) row)) = e.1 /\
    Rr17b_Model.pCom P x (N.lxor e.2 (leBytes (take 16 (drop (24 + 20 * l) row)))) = leBytes (take 20 row).

(** RR17a: the same, the steps of [Rr17a_Model.rr17aRun] up to the buffer. *)
Definition sentA (P : Rr17a_Model.params) (rd : Rr17a_Model.rand) (S : list N) : option (list (list N)) :=
  match Rr17a_Model.mkBins P S (Rr17a_Model.rOrdS rd) with
  | Some bins =>
      match mapM (fun t => Rr17a_Model.sendAssign (Rr17a_Model.rShuf rd) bins (placesOf (Rr17a_Model.pCap P) (Rr17a_Model.pNb P) (Rr17a_Model.pT P) t)) (seq 0 (Rr17a_Model.pT P)) with
      | Some asS =>
          let inp := map (Rr17a_Model.nco P) S in
          Rr17a_Model.placeRows (Rr17a_Model.rMaskPerm rd)
            (Rr17a_Model.sendRows P inp (Rr17a_Model.threadMasks (Rr17a_Model.pEncS P) inp asS (replicate (Rr17a_Model.pN P) 0)) bins (Rr17a_Model.rPlaces rd))
            (replicate (Rr17a_Model.pN P) (replicate (Rr17a_Model.pCap P) 0))
      | None => None
      end
  | None => None
  end.
(** A mask that one of the items of [l] can have, for some choice of OTs of its bin. *)
Definition maskOf (P : Rr17a_Model.params) (x m : N) : Prop :=
  exists t base l1 l2, (t, Rr17a_Model.itemBin P x, base) ∈ places (Rr17a_Model.pCap P) (Rr17a_Model.pNb P) (Rr17a_Model.pT P) /\
    (l1 < Rr17a_Model.pCap P)%nat /\ (l2 < Rr17a_Model.pCap P)%nat /\
    m = N.lxor (Rr17a_Model.pEncR P t (base + l1)%nat (Rr17a_Model.nco P x)) (Rr17a_Model.pEncS P t (base + l2)%nat (Rr17a_Model.nco P x)) mod 2 ^ (8 * Rr17a_Model.pMask P).
Definition maskOfSome (P : Rr17a_Model.params) (R : list N) (m : N) : Prop := exists x, x ∈ R /\ maskOf P x m.
(** No mask of an item of [S] is a mask of another item of [R]. *)
Definition noSharedMask (P : Rr17a_Model.params) (R S : list N) : Prop := forall x y m, x ∈ R -> y ∈ S -> maskOf P x m -> maskOf P y m -> x = y.
