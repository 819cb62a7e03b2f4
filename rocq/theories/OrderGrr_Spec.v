(** Vocabulary: the places of the mask rows of GRR18. *)
From Verif Require Import Base Rr17_Model Rr17a_Model Rr17a_Spec Grr18_Model Grr18_Spec.

(** The mask rows without the padding, the steps of [Grr18_Model.grrRun] up to the value [rows]. *)
Definition sentG (P : params) (rd : grrRand) (lR lS : list nat) (S : list N) : option (list N) :=
  match mkBins P S (gOrdS rd) with
  | Some bins =>
      match mapM (fun t => sendAssign (gShufS rd) bins (placesL lS (pNb P) (pT P) t)) (seq 0 (pT P)) with
      | Some asS =>
          let inp := map (nco P) S in
          Some (concat (map (grrRows P lR inp (threadMasks (pEncS P) inp asS (replicate (pN P) 0)) bins) (gThr rd)))
      | None => None
      end
  | None => None
  end.
(** A row that is a mask of [x], as the receiver gets it. *)
Definition rowOf (P : params) (lR lS : list nat) (x m : N) : Prop := exists full, full ∈ grrMasks P lR lS x /\ m = full mod 2 ^ (8 * pMask P).
(** No row of an item of [S] is a row of another item of [R]. *)
Definition noSharedRow (P : params) (lR lS : list nat) (R S : list N) : Prop :=
  forall x y m, x ∈ R -> y ∈ S -> rowOf P lR lS x m -> rowOf P lR lS y m -> x = y.
(** The number of rows that items in bins below [b] take: for each bin the number of items times the load of the bin. *)
Definition rowsBelow (P : params) (lR : list nat) (S : list N) (b : nat) : nat :=
  list_sum (map (fun k => (load P S k * default 0%nat (lR !! k))%nat) (seq 0 b)).
