(** Property theorems about GRR18 (C49, C50, C86 - C88). *)
From Verif Require Import Base Dcw_Spec Rr17_Model Rr17a_Model Rr17a_Spec Rr17a_Proofs Rr17a_Properties Grr18_Model Grr18_Spec Grr18_Proofs.

(** * C49 *)

(** Threshold 256: the byte is 0 and all items of a bin are cut off. *)
Theorem C49_loads_refuted : exists c noise sizes ls tot, Forall (fun s => s <= cBinCap c) sizes /\ computeLoads c noise sizes = Done (ls, tot) /\
  exists i s l, sizes !! i = Some s /\ ls !! i = Some l /\ l < s.
Proof.
  exists (mkLoadCfg false 256 false 30 30 0 [0]), (fun _ => 0%Z), [3; 0; 30], [0; 0; 0], 0. split; [repeat constructor; by vm_compute|].
  split; [by vm_compute|]. exists 0%nat, 3, 0. by vm_compute.
Qed.
Print Assumptions C49_loads_refuted.

(** All modes; the threshold mode only for thresholds that fit a byte and bins that [get_bin_size] covers. [cBinCap] is the capacity of the bins; exponential
    noise is not negative. *)
Theorem C49_loads_partial c noise sizes ls tot : computeLoads c noise sizes = Done (ls, tot) -> N.of_nat (length sizes) < 2 ^ 56 -> Forall (fun s => s <= cBinCap c) sizes ->
  (cLap c = true \/ cCw c = (-1)%Z \/ ((0 <= cCw c <= 255)%Z /\ cMax c <= 255 /\ cBinCap c <= cMax c)) ->
  (cLap c = false -> cCw c = (-1)%Z -> cOneSided c = true -> forall i, (0 <= noise i)%Z) ->
  Forall2 (fun s l => s <= l <= 255) sizes ls /\ tot = sumN ls.
Proof. exact (loads_partial c noise sizes ls tot). Qed.
Print Assumptions C49_loads_partial.
(** One case per mode; in the first the noise makes the second computation give up. *)
Example C49_example :
  computeLoads (mkLoadCfg true (-1) false 20 20 0 [0]) (fun i => Z.of_nat i + 5)%Z [3; 0; 7; 18] = Done ([8; 6; 14; 20], 48) /\
  computeLoads (mkLoadCfg true (-1) false 20 20 0 [0]) (fun i => Z.of_nat i - 1)%Z [3; 0; 7; 18] = Thrown ([], 0) /\
  computeLoads (mkLoadCfg false 5 false 20 20 0 [0]) (fun _ => 0%Z) [3; 0; 7; 18] = Done ([5; 5; 20; 20], 50) /\
  computeLoads (mkLoadCfg false (-1) true 20 20 0 [0]) (fun i => Z.of_nat (2 * i)) [3; 0; 7; 18] = Done ([3; 2; 11; 20], 36) /\
  computeLoads (mkLoadCfg false (-1) false 20 20 (-2) [1; 4; 9; 12; 30; 2]) (fun i => 3 - 4 * Z.of_nat i)%Z [3; 0; 7; 18] = Done ([12; 4; 12; 18], 46).
Proof. by vm_compute. Qed.

(** * C50 *)

Definition exGrr (n T : nat) (lR lS : list nat) (surplus : Z) (pad : nat -> N) : grrRand :=
  mkGrrRand (fun b => rev (seq 0 (ld lR b))) (fun b => rev (seq 0 (ld lS b))) (seq 0 n) (rev (seq 0 n)) (@rev _) (rev (seq 0 T)) surplus pad (rev (seq 0 T)).
Lemma exGrr_ok hash n nb cap T lR lS surplus pad : grrRandOk (exP hash n nb cap T) lR lS (exGrr n T lR lS surplus pad).
Proof.
  unfold grrRandOk. cbn [gShufR gShufS gOrdR gOrdS gIns gThr gOut exGrr pN pT exP].
  split; [intros b l E; unfold ld; rewrite E; by rewrite <- Permutation_rev|]. split; [intros b l E; unfold ld; rewrite E; by rewrite <- Permutation_rev|].
  split; [done|]. split; [by rewrite <- Permutation_rev|]. split; [intros; by rewrite <- Permutation_rev|]. split; by rewrite <- Permutation_rev.
Qed.
Definition loadsOkb (P : params) (items : list N) (loads : list nat) : bool :=
  bool_decide (length loads = pNb P) && forallb (fun b => (load P items b <=? ld loads b)%nat && (ld loads b <=? pCap P)%nat) (seq 0 (pNb P)).
Lemma loadsOkb_ok P items loads : loadsOkb P items loads = true -> loadsOk P items loads.
Proof.
  intros H. apply andb_true_iff in H as [H1%bool_decide_eq_true H2]. split; [done|]. intros b l E. rewrite forallb_forall in H2.
  assert (b < pNb P)%nat as Hb by (rewrite <- H1; by eapply lookup_lt_Some). specialize (H2 b ltac:(apply in_seq; lia)). unfold ld in H2. rewrite E in H2. cbn in H2. lia.
Qed.
Definition exOwn : list nat := [2; 3; 0; 1]%nat.
Definition exAnn : list nat := [3; 2; 3; 3]%nat.
Definition exLR : list nat := [3; 3; 3; 3]%nat.

(** The number of padding rows is a sum of a constant and symmetric noise. When it comes out negative, the masks are written past the end of the buffer. *)
Theorem C50_complete_refuted : exists P rd ownR lS R S, paramsOk P R /\ paramsOk P S /\ 0 < pMask P /\ loadsOk P R ownR /\ loadsOk P S lS /\
  grrRandOk P (recvLoads ownR lS) lS rd /\ rowsFit P rd /\ NoDup R /\ NoDup S /\ grrCollisionFree P (recvLoads ownR lS) lS (remove_dups (R ++ S)) /\
  (exists x, x ∈ R /\ x ∈ S) /\ grrRun P rd ownR lS R S [] = UB.
Proof.
  exists (exP true 4 4 3 2), (exGrr 4 2 exLR exAnn (-1) (fun _ => 0)), exOwn, exAnn, exSetR, exSetS.
  split; [by apply paramsOkb_ok; vm_compute|]. split; [by apply paramsOkb_ok; vm_compute|]. split; [done|]. split; [by apply loadsOkb_ok; vm_compute|]. split; [by apply loadsOkb_ok; vm_compute|].
  split; [exact (exGrr_ok true 4 4 3 2 exLR exAnn (-1) _)|]. split; [by vm_compute|].
  split; [by apply (bool_decide_unpack _); vm_compute|]. split; [by apply (bool_decide_unpack _); vm_compute|].
  split; [split; by apply (bool_decide_unpack _); vm_compute|]. split; [|by vm_compute]. exists 9. split; by apply (bool_decide_unpack _); vm_compute.
Qed.
Print Assumptions C50_complete_refuted.

(** When it does not come out negative: any number of channels, any loads in the range, any contents of the padding. Missing: negative
    padding noise; keys equal to the empty key of the map. *)
Theorem C50_complete_partial P rd ownR lS R S old i x :
  paramsOk P R -> paramsOk P S -> 0 < pMask P -> loadsOk P R ownR -> loadsOk P S lS -> grrRandOk P (recvLoads ownR lS) lS rd -> (0 <= gSurplus rd)%Z -> rowsFit P rd ->
  NoDup R -> grrCollisionFree P (recvLoads ownR lS) lS R -> R !! i = Some x -> x ∈ S ->
  exists new inR inS, grrRun P rd ownR lS R S old = Done (mkResult (old ++ new) inR inS) /\ N.of_nat i ∈ new.
Proof. exact (grr_complete P rd ownR lS R S old i x). Qed.
Print Assumptions C50_complete_partial.
(** Two channels, two padding rows. *)
Example C50_example : paramsOk (exP true 4 4 3 2) exSetR /\ paramsOk (exP true 4 4 3 2) exSetS /\ loadsOk (exP true 4 4 3 2) exSetR exOwn /\ loadsOk (exP true 4 4 3 2) exSetS exAnn /\
  recvLoads exOwn exAnn = exLR /\ grrRandOk (exP true 4 4 3 2) exLR exAnn (exGrr 4 2 exLR exAnn 2 (fun k => N.of_nat k + 5)) /\ rowsFit (exP true 4 4 3 2) (exGrr 4 2 exLR exAnn 2 (fun k => N.of_nat k + 5)) /\
  NoDup exSetR /\ grrCollisionFree (exP true 4 4 3 2) exLR exAnn exSetR /\
  grrRun (exP true 4 4 3 2) (exGrr 4 2 exLR exAnn 2 (fun k => N.of_nat k + 5)) exOwn exAnn exSetR exSetS [] = Done (mkResult [3; 1] exSetR exSetS).
Proof.
  split; [by apply paramsOkb_ok; vm_compute|]. split; [by apply paramsOkb_ok; vm_compute|]. split; [by apply loadsOkb_ok; vm_compute|]. split; [by apply loadsOkb_ok; vm_compute|].
  split; [done|]. split; [apply exGrr_ok|]. split; [by vm_compute|]. split; [by apply (bool_decide_unpack _); vm_compute|].
  split; [split; by apply (bool_decide_unpack _); vm_compute|]. by vm_compute.
Qed.

(** With the loads that the parties' threads compute in the modes without threshold ([cR], [cS]: the parties' configurations), capacities as set up for 40 bits of
    statistical security. *)
Theorem C50_noise_partial P rd cR cS noiseR noiseS lsR lsS totR totS R S old i x :
  paramsOk P R -> paramsOk P S -> 0 < pMask P -> N.of_nat (pNb P) < 2 ^ 56 ->
  (forall c, c = cR \/ c = cS -> cBinCap c = N.of_nat (pCap P) /\ cMax c <= cBinCap c /\ cCw c = (-1)%Z /\ (forall v, head (cTable c) = Some v -> v <= cBinCap c)) ->
  (cLap cR = false -> cOneSided cR = true -> forall t i, (0 <= noiseR t i)%Z) -> (cLap cS = false -> cOneSided cS = true -> forall t i, (0 <= noiseS t i)%Z) ->
  (forall t, (t < pT P)%nat -> computeLoads cR (noiseR t) (threadSizes P R t) = Done (lsR t, totR t)) ->
  (forall t, (t < pT P)%nat -> computeLoads cS (noiseS t) (threadSizes P S t) = Done (lsS t, totS t)) ->
  let ownR := map N.to_nat (concat (map lsR (seq 0 (pT P)))) in let lS := map N.to_nat (concat (map lsS (seq 0 (pT P)))) in
  grrRandOk P (recvLoads ownR lS) lS rd -> (0 <= gSurplus rd)%Z -> rowsFit P rd -> NoDup R -> grrCollisionFree P (recvLoads ownR lS) lS R -> R !! i = Some x -> x ∈ S ->
  exists new inR inS, grrRun P rd ownR lS R S old = Done (mkResult (old ++ new) inR inS) /\ N.of_nat i ∈ new.
Proof.
  intros HR HS HM Hnb HC NR NS CR CS ownR lS. destruct (HC cR ltac:(by left)) as (A1 & A2 & A3 & A4). destruct (HC cS ltac:(by right)) as (B1 & B2 & B3 & B4).
  apply C50_complete_partial; [done|done|done| |].
  - exact (threads_loads P R cR noiseR lsR totR HR Hnb A1 A2 A3 A4 NR CR).
  - exact (threads_loads P S cS noiseS lsS totS HS Hnb B1 B2 B3 B4 NS CS).
Qed.
Print Assumptions C50_noise_partial.
Example C50_noise_example : let c := mkLoadCfg false (-1) true 3 3 0 [0] in let P := exP true 4 4 3 2 in let noise (t i : nat) := Z.of_nat (2 * i + t) in
  map (fun t => computeLoads c (noise t) (threadSizes P exSetR t)) [0; 1]%nat = [Done ([2; 3], 5); Done ([1; 3], 4)] /\
  map (fun t => computeLoads c (noise t) (threadSizes P exSetS t)) [0; 1]%nat = [Done ([0; 3], 3); Done ([2; 3], 5)] /\
  grrCollisionFree P [2; 3; 2; 3]%nat [0; 3; 2; 3]%nat exSetR /\
  grrRun P (exGrr 4 2 [2; 3; 2; 3]%nat [0; 3; 2; 3]%nat 1 (fun _ => 77)) [2; 3; 1; 3]%nat [0; 3; 2; 3]%nat exSetR exSetS [] = Done (mkResult [3; 1] exSetR exSetS).
Proof. cbv zeta. split; [by vm_compute|]. split; [by vm_compute|]. split; [split; by apply (bool_decide_unpack _); vm_compute|]. by vm_compute. Qed.

(** * C86 *)

(** The padding rows are whatever the memory holds: here a mask of the receiver's item 4, which the sender does not have. *)
Theorem C86_exact_refuted : exists P rd ownR lS R S out, paramsOk P R /\ paramsOk P S /\ 0 < pMask P /\ loadsOk P R ownR /\ loadsOk P S lS /\
  grrRandOk P (recvLoads ownR lS) lS rd /\ (0 <= gSurplus rd)%Z /\ rowsFit P rd /\ NoDup R /\ NoDup S /\ grrCollisionFree P (recvLoads ownR lS) lS (remove_dups (R ++ S)) /\
  grrRun P rd ownR lS R S [] = Done (mkResult out R S) /\ exists i x, R !! i = Some x /\ x ∉ S /\ N.of_nat i ∈ out.
Proof.
  exists (exP true 4 4 3 2), (exGrr 4 2 exLR exAnn 9 (fun k => nth k (map (fun m => m mod 2 ^ 56) (grrMasks (exP true 4 4 3 2) exLR exAnn 4)) 0)), exOwn, exAnn, exSetR, exSetS. eexists.
  split; [by apply paramsOkb_ok; vm_compute|]. split; [by apply paramsOkb_ok; vm_compute|]. split; [done|]. split; [by apply loadsOkb_ok; vm_compute|]. split; [by apply loadsOkb_ok; vm_compute|].
  split; [exact (exGrr_ok true 4 4 3 2 exLR exAnn 9 _)|]. split; [done|]. split; [by vm_compute|].
  split; [by apply (bool_decide_unpack _); vm_compute|]. split; [by apply (bool_decide_unpack _); vm_compute|].
  split; [split; by apply (bool_decide_unpack _); vm_compute|]. split; [vm_compute; reflexivity|].
  exists 0%nat, 4. split; [done|]. split; by apply (bool_decide_unpack _); vm_compute.
Qed.
Print Assumptions C86_exact_refuted.

(** When no padding row has the key of one of the receiver's masks, exactly the common items are reported, each once, for any number of channels. *)
Theorem C86_exact_partial P rd ownR lS R S old :
  paramsOk P R -> paramsOk P S -> 0 < pMask P -> loadsOk P R ownR -> loadsOk P S lS -> grrRandOk P (recvLoads ownR lS) lS rd -> (0 <= gSurplus rd)%Z -> rowsFit P rd ->
  NoDup R -> grrCollisionFree P (recvLoads ownR lS) lS (remove_dups (R ++ S)) -> padMisses P (recvLoads ownR lS) lS R rd ->
  exists new inR inS, grrRun P rd ownR lS R S old = Done (mkResult (old ++ new) inR inS) /\ new ≡ₚ commonPositions R S.
Proof. exact (grr_exact P rd ownR lS R S old). Qed.
Print Assumptions C86_exact_partial.
Example C86_example : grrCollisionFree (exP true 4 4 3 2) exLR exAnn (remove_dups (exSetR ++ exSetS)) /\
  padMisses (exP true 4 4 3 2) exLR exAnn exSetR (exGrr 4 2 exLR exAnn 2 (fun k => N.of_nat k + 5)) /\ commonPositions exSetR exSetS = [1; 3] /\
  grrRun (exP true 4 4 3 2) (exGrr 4 2 exLR exAnn 2 (fun k => N.of_nat k + 5)) exOwn exAnn exSetR exSetS [8] = Done (mkResult [8; 3; 1] exSetR exSetS).
Proof.
  split; [split; by apply (bool_decide_unpack _); vm_compute|]. split; [|by vm_compute].
  intros k Hk. change (Z.to_nat (gSurplus _)) with 2%nat in Hk. do 2 (destruct k as [|k]; [by apply (bool_decide_unpack _); vm_compute|]). lia.
Qed.

(** * C87 *)

(** A statistical security parameter below 40: the bins are smaller than what [computeLoads], which always uses 40, allows. The receiver's row of masks for
    an item has room for the capacity. *)
Theorem C87_capacity_refuted : exists c noise sizes ls tot, Forall (fun s => s <= cBinCap c) sizes /\ cCw c = (-1)%Z /\
  computeLoads c noise sizes = Done (ls, tot) /\ exists i l, ls !! i = Some l /\ cBinCap c < l.
Proof.
  exists (mkLoadCfg true (-1) false 30 20 0 [0]), (fun _ => 22%Z), [3; 0; 20], [25; 22; 30], 77. split; [repeat constructor; by vm_compute|]. split; [done|].
  split; [by vm_compute|]. exists 0%nat, 25. by vm_compute.
Qed.
Print Assumptions C87_capacity_refuted.

Theorem C87_capacity_partial c noise sizes ls tot : computeLoads c noise sizes = Done (ls, tot) -> cCw c = (-1)%Z -> Forall (fun s => s <= cBinCap c) sizes -> cMax c <= cBinCap c ->
  (forall v, head (cTable c) = Some v -> v <= cBinCap c) -> Forall (fun l => l <= cBinCap c) ls.
Proof. exact (loads_cap c noise sizes ls tot). Qed.
Print Assumptions C87_capacity_partial.
Example C87_example : computeLoads (mkLoadCfg false (-1) false 20 20 (-2) [1; 4; 9; 12; 30; 2]) (fun i => 3 + 4 * Z.of_nat i)%Z [3; 0; 7; 18] = Done ([12; 12; 12; 18], 54).
Proof. by vm_compute. Qed.

(** * C88 *)

Theorem C88_inputs_refuted : exists P rd ownR lS R S res, paramsOk P R /\ paramsOk P S /\ loadsOk P R ownR /\ loadsOk P S lS /\ grrRandOk P (recvLoads ownR lS) lS rd /\ pHash P = false /\
  grrRun P rd ownR lS R S [] = Done res /\ resR res <> R /\ resS res <> S.
Proof.
  exists (exP false 4 4 3 2), (exGrr 4 2 exLR exLR 0 (fun _ => 0)), exLR, exLR, exSetR, exSetS. eexists.
  split; [by apply paramsOkb_ok; vm_compute|]. split; [by apply paramsOkb_ok; vm_compute|]. split; [by apply loadsOkb_ok; vm_compute|]. split; [by apply loadsOkb_ok; vm_compute|].
  split; [exact (exGrr_ok false 4 4 3 2 exLR exLR 0 _)|]. split; [done|]. split; [vm_compute; reflexivity|]. done.
Qed.
Print Assumptions C88_inputs_refuted.

Theorem C88_inputs_partial P rd ownR lS R S old res : pHash P = true -> grrRun P rd ownR lS R S old = Done res \/ grrRun P rd ownR lS R S old = Thrown res -> resR res = R /\ resS res = S.
Proof. exact (grr_inputs P rd ownR lS R S old res). Qed.
Print Assumptions C88_inputs_partial.
Example C88_example : grrRun (exP true 4 4 3 2) (exGrr 4 2 exLR exAnn 0 (fun _ => 0)) exOwn exAnn exSetR exSetS [] = Done (mkResult [3; 1] exSetR exSetS) /\
  grrRun (exP true 4 4 3 2) (exGrr 4 2 exLR exAnn 0 (fun _ => 0)) exOwn exAnn [1] exSetS [] = Thrown (mkResult [] [1] exSetS).
Proof. by vm_compute. Qed.
