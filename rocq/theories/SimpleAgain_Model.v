(** Model of a second [init] of a simple index, libPSI/Tools/SimpleIndex.cpp:113-121. *)
From Verif Require Import Base SimpleIndex_Model.
Open Scope N_scope.

(** [std::vector<u64>::resize(n, 0)]: the first entries stay as they are.
    Used for the [resize] calls of SimpleIndex.cpp:113-121. *)
Definition resizeZ (l : list N) (n : nat) : list N := take n l ++ replicate (n - length l) 0.

(** SimpleIndex.cpp:113-121, [init] on the object [s]: [mBinSizes.resize(numBins, 0)] keeps the sizes of the bins there were.
    What [Matrix::resize] (cryptoTools) leaves in [mBins] and [mItemToBinMap] is not fixed here: [cells] and [mp] are arguments. *)
Definition siAgain (s : SIndex) (cells mp : list (list N)) (numBins numHash : N) : SIndex :=
  mkSIndex numHash numBins cells (resizeZ (siSizes s) (N.to_nat numBins)) mp.
