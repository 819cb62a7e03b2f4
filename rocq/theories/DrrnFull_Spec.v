(** Vocabulary of the statements about complete PIR-PSI runs. *)
From Verif Require Import Base CuckooIndex_Model CuckooIndex_Spec Bgi_Model Drrn_Model Kkrt_Model Kkrt_Spec DrrnFull_Model.

(** The final comparison of the client's values [R] with server 0's values [S] goes well: sizes and permutation as set up, the
    client's table takes all values, and no two OPRF values collide. *)
Record finalOk (k : finalRun) (R S : list N) : Prop := {
  fo_params : legalParams (fParam k);
  fo_stash : pStashSize (fParam k) = 0%nat;
  fo_bins : pNumBins (fParam k) < 2 ^ 64 - 1;
  fo_room : (length R <= pN (fParam k))%nat;
  fo_small : N.of_nat (pN (fParam k)) < 2 ^ 56;
  fo_perm : permutationOf (length S) (fPm k) (fIv k);
  fo_fits : forall c0, init (fParam k) (constructed (fLimit k)) = Done c0 -> exists c, insertItems (fEnc k (fSeed k)) c0 R 0 = Done c;
  fo_match : noFalseMatch (fF k) (fEnc k (fSeed k)) (pNumBins (fParam k)) (fMaskSize k) R S;
  fo_junk : junkHarmless (fF k) (fEnc k (fSeed k)) (fJunk k) (pNumBins (fParam k)) (fMaskSize k) R;
  fo_keys : keysDistinct (fF k) (fEnc k (fSeed k)) (pNumBins (fParam k)) (fMaskSize k) R }.
