(** Property theorems about the two buffers. *)
From Verif Require Import Base Masks_Model Buffers_Model Buffers_Proofs.
Local Open Scope N_scope.

(** C144. A mask fits the block it is kept in. Full statement, for KKRT: no parameters of [init] make the receiver write beyond the block. It is false: *)
Theorem C144_kkrt_refuted : exists ssp nS nR h, ssp <= 128 /\ 0 < nS * nR < 2 ^ 64 /\ length h = 20%nat /\ kkrtStore ssp nS nR h = UB.
Proof. exists 100, (2 ^ 20), (2 ^ 20), (replicate 20 0). split_and!; [lia|lia|done|done|by vm_compute]. Qed.
Print Assumptions C144_kkrt_refuted.
(** Exactly when it does: the security parameter and the logarithm of the product of the set sizes add up to more than 128. *)
Theorem C144_kkrt_partial ssp nS nR h : 0 < nS * nR < 2 ^ 64 -> (16 <= length h)%nat ->
  (ssp + N.log2 (nS * nR) <= 128 -> exists b m, kkrtMaskBytes ssp nS nR = Done b /\ kkrtStore ssp nS nR h = Done m /\ length m = 16%nat /\ take (N.to_nat b) m = take (N.to_nat b) h) /\
  (128 < ssp + N.log2 (nS * nR) -> kkrtStore ssp nS nR h = UB).
Proof. exact (kkrt_store ssp nS nR h). Qed.
Print Assumptions C144_kkrt_partial.
Example C144_case : kkrtMaskBytes 40 1000 500 = Done 8 /\ kkrtStore 40 1000 500 (map N.of_nat (seq 1 20)) = Done (map N.of_nat (seq 1 8) ++ replicate 8 0).
Proof. split; vm_compute; done. Qed.
(** ECDH and PRTY compute the length for 40 bits. *)
Theorem C144_ecdh ssp n h : 0 < n < 2 ^ 44 -> (16 <= length h)%nat -> exists m, ecdhStore ssp n h = Done m /\ length m = 16%nat.
Proof. exact (ecdh_store ssp n h). Qed.
Theorem C144_prty ssp nT nM h : 0 < nT * nM < 2 ^ 64 -> (16 <= length h)%nat -> exists m, prtyStore ssp nT nM h = Done m /\ length m = 16%nat.
Proof. exact (prty_store ssp nT nM h). Qed.
Print Assumptions C144_ecdh.
Print Assumptions C144_prty.
Example C144_case_others : (exists m, ecdhStore 128 (2 ^ 40) (replicate 16 5) = Done m) /\ exists m, prtyStore 128 (2 ^ 30) (2 ^ 33) (replicate 16 5) = Done m.
Proof. split; eexists; vm_compute; reflexivity. Qed.

(** C145. The sender of PRTY copies the items of a bin and goes on. False for every bin with an item: the loop never ends, because it increments the counter of the enclosing loop. *)
Theorem C145_prty_refuted fuel inputs idxs i bin : idxs <> [] -> Forall (fun k => (N.to_nat k < length inputs)%nat) idxs -> binCopy fuel inputs idxs i 0 bin = OutOfFuel.
Proof. exact (copy_endless fuel inputs idxs i bin). Qed.
Print Assumptions C145_prty_refuted.
Example C145_case : binCopy 100 [7; 8; 9] [2; 0] 0 0 [0; 0] = OutOfFuel.
Proof. vm_compute. done. Qed.
(** It is true for an empty bin only. *)
Theorem C145_prty_partial fuel inputs i bin : binCopy (S fuel) inputs [] i 0 bin = Done (i, bin).
Proof. exact (copy_empty fuel inputs i bin). Qed.
Print Assumptions C145_prty_partial.
