(** What a complete PIR-PSI run reports, for every table the server builds and block size one (continues C185). *)
From Coq Require Import QArith.
From Verif Require Import Base CuckooIndex_Model CuckooIndex_Spec CuckooParams_Model CuckooParams_Proofs Bgi_Model Bgi_Properties Drrn_Model Drrn_Spec Drrn_Proofs DrrnTop_Proofs Drrn_Properties
  Kkrt_Model Kkrt_Spec DrrnFull_Model DrrnFull_Spec DrrnFull_Proofs DrrnFull_Properties DrrnShare_Spec DrrnShare_Proofs.
Local Open Scope N_scope.

Lemma full_reports log2d sec fuel lim enc aes prng c serverSet numHash ssp s ci inputs p :
  setInputs log2d sec fuel enc (constructed lim) serverSet numHash ssp = Done ci ->
  selectParams log2d sec fuel (N.of_nat (length serverSet)) ssp 0 numHash = Done (Some s) ->
  (0 < length serverSet)%nat -> (0 <= log2d (N.of_nat (length serverSet)))%Q ->
  dSlots p = selNumBins s -> dH p = N.to_nat (sHashes s) ->
  sizesOk p -> length inputs = dN p -> queriesFit enc p inputs -> choicesOk p c ->
  masksFresh p (cMask c) serverSet inputs -> 0 ∉ inputs ->
  exists reals final, drrnParts p enc aes prng c serverSet (cBins ci) inputs = Some (reals, final) /\
    forall k, finalOk k (map snd reals) final ->
      finalOut k p reals final = Done None \/
      exists out, finalOut k p reals final = Done (Some out) /\ NoDup out /\ forall i, i ∈ out <-> exists x, inputs !! i = Some x /\ shiftedHit enc p serverSet (cBins ci) x.
Proof.
  intros E Es Hn Hl HS HH Hsz Hlen Hfit Hch HM H0.
  destruct (selectParams_ok log2d sec fuel (N.of_nat (length serverSet)) ssp 0 numHash s ltac:(lia) Hl Es) as (_ & _ & Hge & _).
  assert (N.of_nat (length serverSet) < 2 ^ 56) as Hb.
  { destruct Hsz as (_ & _ & _ & _ & [_ H31] & _). assert (2 ^ 31 < 2 ^ 56) by done. rewrite HS in H31. lia. }
  pose proof (setInputs_table _ _ _ _ _ _ _ _ _ s p E Es Hn Hl Hb HS HH) as Htab.
  destruct (parts_ok p enc aes prng c serverSet (cBins ci) inputs Hsz Hlen Hfit Hch Htab) as (reals & final & Ep & Lr & Lf).
  exists reals, final. split; [done|]. intros k Hk.
  assert (0 < permSize p)%nat as HP. { unfold permSize. destruct Hsz as (-> & _ & ? & ? & _). nia. }
  destruct (run_reports p enc aes prng c serverSet (cBins ci) inputs Hsz Hlen Hfit Hch Htab HM H0) as (out' & Ed & _ & Hout).
  rewrite parts_drrn, Ep in Ed. injection Ed as <-.
  destruct (finalOut_ok k p reals final Lr Lf HP Hk) as [Q|(out & Q & ND & Hi)]; [by left|right].
  exists out. split; [done|]. split; [done|]. intros i. rewrite Hi, <- Hout. by rewrite elem_of_remove_dups.
Qed.

Theorem C185_full_reports log2d sec fuel lim enc aes prng c serverSet numHash ssp s ci inputs p :
  setInputs log2d sec fuel enc (constructed lim) serverSet numHash ssp = Done ci ->
  selectParams log2d sec fuel (N.of_nat (length serverSet)) ssp 0 numHash = Done (Some s) ->
  (0 < length serverSet)%nat -> (0 <= log2d (N.of_nat (length serverSet)))%Q ->
  dSlots p = selNumBins s -> dH p = N.to_nat (sHashes s) ->
  sizesOk p -> length inputs = dN p -> queriesFit enc p inputs -> choicesOk p c ->
  masksFresh p (cMask c) serverSet inputs -> 0 ∉ inputs ->
  exists reals final, drrnParts p enc aes prng c serverSet (cBins ci) inputs = Some (reals, final) /\
    forall k, finalOk k (map snd reals) final ->
      finalOut k p reals final = Done None \/
      exists out, finalOut k p reals final = Done (Some out) /\ NoDup out /\ forall i, i ∈ out <-> exists x, inputs !! i = Some x /\ shiftedHit enc p serverSet (cBins ci) x.
Proof. exact (full_reports log2d sec fuel lim enc aes prng c serverSet numHash ssp s ci inputs p). Qed.
Print Assumptions C185_full_reports.

(** The server's own table of [140; 219; 90] leaves two slots in front empty: of the common items 90 is found through its other slot, 219 is missed. *)
Definition sTable : Cuckoo := match setInputs (fun _ => 0%Q) fSec 10 exEnc (constructed 20) [140; 219; 90] 2 40 with Done c => c | _ => constructed 0 end.
Example C185_reports_example : setInputs (fun _ => 0%Q) fSec 10 exEnc (constructed 20) [140; 219; 90] 2 40 = Done sTable /\
  selectParams (fun _ => 0%Q) fSec 10 3 40 0 2 = Done (Some (mkSelected 0 3 2 3)) /\ dSlots fP = selNumBins (mkSelected 0 3 2 3) /\
  sizesOk fP /\ queriesFit exEnc fP [90; 219] /\ choicesOk fP fC /\ masksFresh fP (cMask fC) [140; 219; 90] [90; 219] /\ 0 ∉ [90; 219] /\
  drrn fP exEnc exAes exPrng fC [140; 219; 90] (cBins sTable) [90; 219] = Some [0%nat].
Proof.
  split; [vm_compute; reflexivity|]. split; [vm_compute; reflexivity|]. split; [vm_compute; reflexivity|].
  split; [unfold sizesOk; cbn; repeat split; try lia; by vm_compute|]. split; [intros b; etrans; [apply filter_length|]; done|]. split.
  { split; [apply perm_check; [apply (bool_decide_eq_true_1 _)|..]; by vm_compute|]. split; [done|].
    split; [|done]. constructor; [apply Permutation_swap|constructor; [done|constructor]]. }
  split; [apply exMask_fresh; repeat constructor|]. split; [exNot|]. vm_compute. reflexivity.
Qed.
