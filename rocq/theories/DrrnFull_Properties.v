(** Property theorems about complete PIR-PSI runs (C184, C185). *)
From Coq Require Import QArith.
From Verif Require Import Base CuckooIndex_Model CuckooIndex_Spec CuckooParams_Model Bgi_Model Bgi_Properties Drrn_Model Drrn_Spec DrrnTop_Proofs Drrn_Properties
  Kkrt_Model Kkrt_Spec DrrnFull_Model DrrnFull_Spec DrrnFull_Proofs.
Local Open Scope N_scope.

(** * C184 *)

(** The table made by [setInputs]: every item once, in one of its slots. *)
Theorem C184_set_inputs_table log2d sec fuel enc lim serverSet numHash ssp ci s p : setInputs log2d sec fuel enc (constructed lim) serverSet numHash ssp = Done ci ->
  selectParams log2d sec fuel (N.of_nat (length serverSet)) ssp 0 numHash = Done (Some s) ->
  (0 < length serverSet)%nat -> (0 <= log2d (N.of_nat (length serverSet)))%Q -> N.of_nat (length serverSet) < 2 ^ 56 ->
  dSlots p = selNumBins s -> dH p = N.to_nat (sHashes s) -> tableOk enc p serverSet (cBins ci).
Proof. exact (setInputs_table log2d sec fuel enc lim serverSet numHash ssp ci s p). Qed.
Print Assumptions C184_set_inputs_table.

(** A wrong number of hash functions is refused, and so is a second set. *)
Theorem C184_set_inputs_guards log2d sec fuel enc c inputs numHash ssp :
  (numHash ≠ 2 -> numHash ≠ 3 -> setInputs log2d sec fuel enc c inputs numHash ssp = Thrown c) /\
  (cBins c ≠ [] -> setInputs log2d sec fuel enc c inputs numHash ssp = Thrown c).
Proof. exact (setInputs_guards log2d sec fuel enc c inputs numHash ssp). Qed.
Print Assumptions C184_set_inputs_guards.

Definition fSec (n st : N) (e : Z) : Q := inject_Z (e * 15).
Definition fP : dparams := mkDrrn 2 2 9 1 4 1.
Definition fC : dchoices := mkChoices exMask (cSeed exC) [2; 0; 3; 1]%nat [[1; 0]; [0; 1]]%nat [0%nat] [0%nat].
Definition fSet : list N := [105; 140; 219].
Definition fTable : Cuckoo := match setInputs (fun _ => 0%Q) fSec 10 exEnc (constructed 20) fSet 2 40 with Done c => c | _ => constructed 0 end.
Example C184_example : setInputs (fun _ => 0%Q) fSec 10 exEnc (constructed 20) fSet 2 40 = Done fTable /\
  map wordIdx (cBins fTable) = [0; 2 ^ 56 - 1; 1; 2 ^ 56 - 1; 2 ^ 56 - 1; 2 ^ 56 - 1; 2; 2 ^ 56 - 1; 2 ^ 56 - 1] /\
  selectParams (fun _ => 0%Q) fSec 10 3 40 0 2 = Done (Some (mkSelected 0 3 2 3)) /\ dSlots fP = selNumBins (mkSelected 0 3 2 3).
Proof. repeat split; vm_compute; reflexivity. Qed.

(** * C185 *)

(** [Done None]: the schedule ends before the sender of the final comparison has finished. *)
Theorem C185_full_run_exact log2d sec fuel lim enc aes prng c serverSet numHash ssp s ci inputs p :
  setInputs log2d sec fuel enc (constructed lim) serverSet numHash ssp = Done ci ->
  selectParams log2d sec fuel (N.of_nat (length serverSet)) ssp 0 numHash = Done (Some s) ->
  (0 < length serverSet)%nat -> (0 <= log2d (N.of_nat (length serverSet)))%Q ->
  dSlots p = selNumBins s -> dH p = N.to_nat (sHashes s) ->
  sizesOk p -> length inputs = dN p -> queriesFit enc p inputs -> choicesOk p c ->
  masksFresh p (cMask c) serverSet inputs -> 0 ∉ inputs -> regionsLead p (cBins ci) ->
  exists reals final, drrnParts p enc aes prng c serverSet (cBins ci) inputs = Some (reals, final) /\
    forall k, finalOk k (map snd reals) final ->
      finalOut k p reals final = Done None \/
      exists out, finalOut k p reals final = Done (Some out) /\ NoDup out /\ forall i, i ∈ out <-> exists x, inputs !! i = Some x /\ x ∈ serverSet.
Proof. exact (full_exact log2d sec fuel lim enc aes prng c serverSet numHash ssp s ci inputs p). Qed.
Print Assumptions C185_full_run_exact.

Definition fK : finalRun := mkFinal (fun b x => x * 16 + b) (fun seed x => x * 0x9e3779b97f4a7c15f39cc0605cedc835 + seed) 5 (fun _ _ => 2 ^ 80 - 1) 10
  (mkParam 0 11 3 8) 20 [3; 0; 1; 2]%nat [1; 2; 3; 0]%nat (replicate 3 false ++ [true; false; true] ++ replicate 1030 false).
Definition fReals : list (nat * N) := [(0%nat, 1099511627916); (0%nat, 2199023255692); (1%nat, 3298534883628); (1%nat, 4398046511404)].
Definition fFinal : list N := [2199023255692; 1099511627776; 3298534883328; 4398046511104].
Lemma fSmall x : x ∈ map snd fReals \/ x ∈ fFinal -> x < 2 ^ 50.
Proof.
  assert (Forall (fun x => x < 2 ^ 50) (map snd fReals ++ fFinal)) as Fa by (repeat constructor). rewrite Forall_forall in Fa.
  intros H. apply Fa. by rewrite elem_of_app.
Qed.
Lemma fBin x b : candidate (fEnc fK 5) 11 x b -> b < 11.
Proof. intros (j & _ & Hj). unfold mapsTo in Hj. subst b. by apply N.mod_lt. Qed.
Lemma fMod b x : b < 11 -> x < 2 ^ 50 -> (x * 16 + b) mod 256 ^ 10 = x * 16 + b.
Proof. intros. apply N.mod_small. change (256 ^ 10) with 1208925819614629174706176. change (2 ^ 50) with 1125899906842624 in *. lia. Qed.
Example C185_example_final : finalOk fK (map snd fReals) fFinal /\ finalOut fK fP fReals fFinal = Done (Some [0%nat]).
Proof.
  split; [|vm_compute; reflexivity]. split; try (vm_compute; done).
  - cbn. lia.
  - split; [|split; [done|]].
    + apply perm_check; [apply (bool_decide_eq_true_1 _)|..]; by vm_compute.
    + intros k x. cbn [fPm fIv fK]. split.
      * intros H. assert (k < 4)%nat as Hk by (apply lookup_lt_Some in H; exact H). split; [exact Hk|]. do 4 (destruct k as [|k]; [injection H as <-; reflexivity|]). lia.
      * intros [Hk H]. assert (x < 4)%nat as Hx by (apply lookup_lt_Some in H; exact H). do 4 (destruct x as [|x]; [injection H as <-; reflexivity|]). lia.
  - intros c0 E. injection E as <-. eexists. vm_compute. reflexivity.
  - intros x y b b' Rx Sy Cx Cy E. apply fBin in Cx, Cy. assert (x < 2 ^ 50) by (apply fSmall; by left). assert (y < 2 ^ 50) by (apply fSmall; by right).
    cbn [fF fK fMaskSize] in E. rewrite !fMod in E by done. lia.
  - intros i h x b Rx Cx E. apply fBin in Cx. assert (x < 2 ^ 50) by (apply fSmall; by left). cbn [fF fK fMaskSize fJunk] in E. rewrite fMod in E by done.
    change ((2 ^ 80 - 1) mod 256 ^ 10) with 1208925819614629174706175 in E. change (2 ^ 50) with 1125899906842624 in *. lia.
  - intros x x' b b' Rx Rx' Cx Cx' E. apply fBin in Cx, Cx'. assert (x < 2 ^ 50) by (apply fSmall; by left). assert (x' < 2 ^ 50) by (apply fSmall; by left).
    cbn [fF fK fMaskSize] in E. rewrite !fMod in E by done. change (2 ^ 50) with 1125899906842624 in *. change (2 ^ 64) with 18446744073709551616 in E.
    rewrite !N.mod_small in E by lia. lia.
Qed.
Example C185_example : sizesOk fP /\ length [140; 300] = dN fP /\ queriesFit exEnc fP [140; 300] /\ choicesOk fP fC /\ masksFresh fP (cMask fC) fSet [140; 300] /\
  0 ∉ [140; 300] /\ regionsLead fP (cBins fTable) /\
  drrnParts fP exEnc exAes exPrng fC fSet (cBins fTable) [140; 300] = Some (fReals, fFinal).
Proof.
  split; [unfold sizesOk; cbn; repeat split; try lia; by vm_compute|]. split; [done|].
  split; [intros b; etrans; [apply filter_length|]; done|]. split.
  { split; [apply perm_check; [apply (bool_decide_eq_true_1 _)|..]; by vm_compute|]. split; [done|].
    split; [|done]. constructor; [apply Permutation_swap|constructor; [done|constructor]]. }
  split; [apply exMask_fresh; repeat constructor|]. split; [exNot|]. split; [|by vm_compute].
  intros b c w Hc Hw Hr. exists 0%nat, (packWord 0 0). split; [by vm_compute|]. split; [by vm_compute|]. unfold inRegion in *. cbn in Hr |- *.
  assert (c < 9)%nat by (apply lookup_lt_Some in Hc; by vm_compute in Hc). split; lia.
Qed.
