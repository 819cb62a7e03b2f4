(** Two buffers: the block in which the receiver keeps a mask, and the copy of a bin at the sender of PRTY. *)
From Verif Require Import Base Masks_Model.
Local Open Scope N_scope.

(** KkrtPsiReceiver.cpp:172-174: [block encoding = ZeroBlock; mOtRecv->encode(bIdx, &item, &encoding, maskByteSize)] writes the first [maskByteSize] bytes of the hash [h] into the 16 bytes of [encoding];
    EcdhPsiReceiver.cpp:204 and PrtyReceiver.cpp:251, 274 read as many bytes of a [block] with [memcmp]. Beyond the block: undefined. Simplification: bytes as numbers; the hash is any long enough list. *)
Definition storeMask (size : N) (h : list N) : outcome (list N) :=
  if 16 <? size then UB else Done (take (N.to_nat size) h ++ replicate (16 - N.to_nat size) 0).
(** The number of bytes is computed first (KkrtPsiReceiver.cpp:125,
    EcdhPsiReceiver.cpp:47, PrtyReceiver.cpp:71); if that fails, the write
    is undefined. *)
Definition withSize (size : outcome N) (h : list N) : outcome (list N) :=
  match size with Done b => storeMask b h | Thrown _ => UB | UB => UB | OutOfFuel => OutOfFuel end.
(** KkrtPsiReceiver.cpp:172-174. *)
Definition kkrtStore (ssp nS nR : N) (h : list N) : outcome (list N) := withSize (kkrtMaskBytes ssp nS nR) h.
(** EcdhPsiReceiver.cpp:204. *)
Definition ecdhStore (ssp n : N) (h : list N) : outcome (list N) := withSize (ecdhMaskBytes ssp n) h.
(** PrtyReceiver.cpp:251, 274. *)
Definition prtyStore (ssp nT nM : N) (h : list N) : outcome (list N) := withSize (prtyMaskBytes ssp nT nM) h.

(** PrtySender.cpp:138-140: [for (u64 j = 0; j < bin.size(); ++i) bin[j] = inputs[simple.mBins(bIdx, j).idx()]]. [idxs]: the indices in the bin; [i]: the counter of the enclosing loop, a [u64].
    Simplification: [bin] has the size of [idxs]. *)
Fixpoint binCopy (fuel : nat) (inputs : list N) (idxs : list N) (i j : N) (bin : list N) : outcome (N * list N) :=
  match fuel with
  | O => OutOfFuel
  | S f => if j <? N.of_nat (length idxs) then
             match idxs !! N.to_nat j with
             | None => UB
             | Some k => match inputs !! N.to_nat k with
                         | None => UB
                         | Some v => binCopy f inputs idxs ((i + 1) mod two64) j (<[N.to_nat j := v]> bin)
                         end
             end
           else Done (i, bin)
  end.
