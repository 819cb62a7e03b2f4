(** Property theorems: what the client of the PIR-PSI protocol learns about the server's table (C179). *)
From Verif Require Import Base CuckooIndex_Model Bgi_Model Bgi_Spec Bgi_Properties Drrn_Model Drrn_Spec Drrn_Proofs DrrnTop_Proofs Drrn_Properties.
From Verif Require Import DrrnView_Spec DrrnHit_Model DrrnHit_Spec DrrnHit_Proofs DrrnHit_Proofs2.

(** * C179 *)

(** The final protocol tells the client which of its masked values are matched: for item [i] those at the places to which the shuffle of the masks moves
    the hash functions under which the server stores the item. The client knows the shuffles. *)
Theorem C179_learns p enc aes prng c serverSet bins inputs : sizesOk p -> length inputs = dN p -> queriesFit enc p inputs -> choicesOk p c -> tableOk enc p serverSet bins ->
  masksFresh p (cMask c) serverSet inputs -> regionsLead p bins ->
  exists hits, drrnHits p enc aes prng c serverSet bins inputs = Some hits /\ (forall q, q ∈ hits -> (q < dN p * dH p)%nat) /\
    forall i j' x, inputs !! i = Some x -> (j' < dH p)%nat ->
      (i * dH p + j')%nat ∈ hits <-> exists sg j, cSigmas c !! i = Some sg /\ (j < dH p)%nat /\ arrange sg j = j' /\ slotContent serverSet bins (itemSlot enc (dSlots p) x j) = x.
Proof. exact (hits_ok p enc aes prng c serverSet bins inputs). Qed.
Print Assumptions C179_learns.
(** The client's output is made of these matches. *)
Theorem C179_output p enc aes prng c serverSet bins inputs : sizesOk p -> length inputs = dN p -> queriesFit enc p inputs -> choicesOk p c -> tableOk enc p serverSet bins ->
  exists hits out, drrnHits p enc aes prng c serverSet bins inputs = Some hits /\ drrn p enc aes prng c serverSet bins inputs = Some out /\
    forall i, i ∈ out <-> exists q, q ∈ hits /\ (q / dH p)%nat = i.
Proof. exact (hits_out p enc aes prng c serverSet bins inputs). Qed.
Print Assumptions C179_output.

Definition exBins1 : list N := [packWord 0 0; e; e; e; packWord 1 0; e; e; e].
Definition exBins2 : list N := [packWord 0 0; packWord 1 1; e; e; e; e; e; e].
Lemma exLead1 : regionsLead exP exBins1.
Proof.
  intros b c w Hc Hw Hr. unfold inRegion in *. cbn in Hr |- *. assert (c < 8)%nat by (apply lookup_lt_Some in Hc; done). destruct (decide (b = 0)) as [->|Hb].
  - exists 0%nat, (packWord 0 0). split; [done|]. split; [by vm_compute|]. split; lia.
  - assert (b = 1) as -> by lia. exists 4%nat, (packWord 1 0). split; [done|]. split; [by vm_compute|]. split; lia.
Qed.
Lemma exLead2 : regionsLead exP exBins2.
Proof.
  intros b c w Hc Hw Hr. unfold inRegion in *. cbn in Hr |- *. assert (c < 2)%nat.
  { do 2 (destruct c as [|c]; [lia|]). exfalso. apply Hw. do 6 (destruct c as [|c]; [by injection Hc as <-|]). done. }
  assert (b = 0) as -> by lia. exists 0%nat, (packWord 0 0). split; [done|]. split; [by vm_compute|]. split; lia.
Qed.
Lemma exTable1 : tableOk exEnc exP [104; 140] exBins1.
Proof. unfold exBins1. exTab. Qed.
Lemma exTable2 : tableOk exEnc exP [104; 140] exBins2.
Proof. unfold exBins2. exTab. Qed.

(** The shuffles are fixed by the seed [CCBlock]: with the same shuffles, two tables of the same set lead to different matches. *)
Theorem C179_hidden_refuted : exists p enc aes prng serverSet bins bins' inputs, sizesOk p /\ dH p = 2%nat /\ length inputs = dN p /\ queriesFit enc p inputs /\ NoDup serverSet /\ 0 ∉ inputs /\
  tableOk enc p serverSet bins /\ tableOk enc p serverSet bins' /\ regionsLead p bins /\ regionsLead p bins' /\ (exists c, choicesOk p c /\ masksFresh p (cMask c) serverSet inputs) /\
  forall c, choicesOk p c -> masksFresh p (cMask c) serverSet inputs ->
    drrnHits p enc aes prng c serverSet bins' inputs <> drrnHits p enc aes prng c serverSet bins inputs.
Proof.
  exists exP, exEnc, exAes, exPrng, [104; 140], exBins1, exBins2, [140; 300]. split; [exact exP_sizes|]. split; [done|]. split; [done|]. split; [apply exFit|]. split; [exNot|]. split; [exNot|].
  split; [exact exTable1|]. split; [exact exTable2|]. split; [exact exLead1|]. split; [exact exLead2|]. split; [exists exC; split; [exact exC_ok|apply exMask_fresh; repeat constructor]|].
  intros c Hc HM E.
  destruct (hits_ok exP exEnc exAes exPrng c [104; 140] exBins1 [140; 300] exP_sizes eq_refl (exFit 140 300) Hc exTable1 HM exLead1) as (h1 & E1 & _ & K1).
  destruct (hits_ok exP exEnc exAes exPrng c [104; 140] exBins2 [140; 300] exP_sizes eq_refl (exFit 140 300) Hc exTable2 HM exLead2) as (h2 & E2 & _ & K2).
  rewrite E1, E2 in E. injection E as ->. destruct Hc as (_ & Ls & Hsg & _). destruct (lookup_lt_is_Some_2 (cSigmas c) 0%nat) as [sg Hs]; [rewrite Ls; cbn; lia|].
  rewrite Forall_forall in Hsg. pose proof (Hsg sg (elem_of_list_lookup_2 _ _ _ Hs)) as Ps. change (dH exP) with 2%nat in *.
  assert (arrange sg 0 < 2)%nat as La by (by apply (arrange_lt 2); [|lia]).
  pose proof (proj2 (K1 0%nat (arrange sg 0) 140 eq_refl La)) as I. assert ((0 * 2 + arrange sg 0)%nat ∈ h1) as I1 by (apply I; exists sg, 0%nat; split; [done|]; split; [lia|]; split; [done|]; by vm_compute).
  apply (proj1 (K2 0%nat (arrange sg 0) 140 eq_refl La)) in I1 as (sg' & j & Hs' & Hj & Ea & Ec). rewrite Hs in Hs'. injection Hs' as <-.
  destruct j as [|[|]]; [by vm_compute in Ec| |lia]. destruct (two_cases sg Ps) as [-> | ->]; by vm_compute in Ea.
Qed.
Print Assumptions C179_hidden_refuted.

Definition ex3Enc (x : N) : N := N.lxor (x mod 8 + 2 ^ 16 * (x / 8 mod 8) + 2 ^ 32 * (x / 64 mod 8)) x.
Definition ex3P : dparams := mkDrrn 1 3 8 1 4 1.
Definition ex3C : dchoices := mkChoices exMask (fun q => N.of_nat q + 9) [3; 1; 0; 2]%nat [[1; 0; 2]]%nat [0]%nat [0]%nat.
Definition ex3Bins1 : list N := [packWord 0 0; packWord 1 0; e; e; e; e; e; e].
Definition ex3Bins2 : list N := [packWord 0 0; e; e; packWord 1 2; e; e; e; e].
Lemma ex3_sizes : sizesOk ex3P.
Proof. unfold sizesOk. cbn. repeat split; try lia; by vm_compute. Qed.
Lemma ex3C_ok : choicesOk ex3P ex3C.
Proof.
  unfold choicesOk. split; [|split; [done|]].
  - apply perm_check; [apply (bool_decide_eq_true_1 _)|..]; by vm_compute.
  - split; [|done]. constructor; [apply perm_check; [apply (bool_decide_eq_true_1 _)|..]; by vm_compute|constructor].
Qed.
Lemma ex3_fit x : queriesFit ex3Enc ex3P [x].
Proof. intros b. etrans; [apply filter_length|]. cbn. lia. Qed.
Ltac ex3Tab := split; [done|split; [apply perm_check; [apply (bool_decide_eq_true_1 _)|..]; by vm_compute|]];
  intros c w x Hc Hw Hx; do 8 (destruct c as [|c]; [injection Hc as <-; first [by exfalso; apply Hw|vm_compute in Hx; injection Hx as <-;
    first [exists 0%nat; split; [cbn; lia|by vm_compute]|exists 1%nat; split; [cbn; lia|by vm_compute]|exists 2%nat; split; [cbn; lia|by vm_compute]]]|]); done.
Lemma ex3_lead bins : bins !! 0%nat = Some (packWord 0 0) -> length bins = 8%nat -> regionsLead ex3P bins.
Proof.
  intros H0 HL b c w Hc Hw Hr. unfold inRegion in *. cbn in Hr |- *. assert (c < 8)%nat by (apply lookup_lt_Some in Hc; lia).
  exists 0%nat, (packWord 0 0). split; [done|]. split; [by vm_compute|]. split; lia.
Qed.
(** Secret shuffles would not hide it for three hash functions: the exchanges never move hash function 2 to place 1. A match at place 1 occurs for a table
    that stores the item under hash function 0, and for no choices whatever for a table that stores it under hash function 2. *)
Theorem C179_three_hashes_refuted : exists p enc aes prng serverSet bins bins' inputs q, sizesOk p /\ dH p = 3%nat /\ length inputs = dN p /\ queriesFit enc p inputs /\ NoDup serverSet /\ 0 ∉ inputs /\
  tableOk enc p serverSet bins /\ tableOk enc p serverSet bins' /\ regionsLead p bins /\ regionsLead p bins' /\
  (exists c hits, choicesOk p c /\ masksFresh p (cMask c) serverSet inputs /\ drrnHits p enc aes prng c serverSet bins inputs = Some hits /\ q ∈ hits) /\
  forall c hits, choicesOk p c -> masksFresh p (cMask c) serverSet inputs -> drrnHits p enc aes prng c serverSet bins' inputs = Some hits -> q ∉ hits.
Proof.
  exists ex3P, ex3Enc, exAes, exPrng, [512; 209], ex3Bins1, ex3Bins2, [209], 1%nat. split; [exact ex3_sizes|]. split; [done|]. split; [done|]. split; [apply ex3_fit|]. split; [exNot|]. split; [exNot|].
  assert (tableOk ex3Enc ex3P [512; 209] ex3Bins2) as T2 by (unfold ex3Bins2; ex3Tab).
  split; [unfold ex3Bins1; ex3Tab|]. split; [exact T2|]. split; [by apply ex3_lead|]. split; [by apply ex3_lead|]. split.
  { exists ex3C, [1]%nat. split; [exact ex3C_ok|]. split; [apply exMask_fresh; repeat constructor|]. split; [by vm_compute|left]. }
  intros c hits Hc HM Eh Hq.
  destruct (hits_ok ex3P ex3Enc exAes exPrng c [512; 209] ex3Bins2 [209] ex3_sizes eq_refl (ex3_fit 209) Hc T2 HM (ex3_lead ex3Bins2 eq_refl eq_refl)) as (h & E & _ & K). rewrite Eh in E. injection E as <-.
  apply (proj1 (K 0%nat 1%nat 209 eq_refl ltac:(cbn; lia))) in Hq as (sg & j & Hs & Hj & Ea & Ec). destruct Hc as (_ & _ & Hsg & _). rewrite Forall_forall in Hsg.
  assert (j = 2%nat) as ->; [|by apply (three_places sg 2 (Hsg sg (elem_of_list_lookup_2 _ _ _ Hs)) Hj Ea)]. change (dH ex3P) with 3%nat in Hj. destruct j as [|[|[|]]]; [by vm_compute in Ec|by vm_compute in Ec|done|lia].
Qed.
Print Assumptions C179_three_hashes_refuted.

(** Missing: shuffles known to the client, three hash functions. With two hash functions, exchanging some of the shuffles turns the matches for one table into
    those for another table of the same set: if the shuffles were secret and uniform, the matches would have the same distribution. *)
Theorem C179_two_hashes_partial p enc aes prng serverSet bins bins' inputs : sizesOk p -> dH p = 2%nat -> length inputs = dN p -> queriesFit enc p inputs ->
  tableOk enc p serverSet bins -> tableOk enc p serverSet bins' -> regionsLead p bins -> regionsLead p bins' -> NoDup serverSet -> 0 ∉ inputs ->
  exists F, (forall l, F (F l) = l) /\ (forall l, Forall (fun sg => sg ≡ₚ seq 0 2) l -> Forall (fun sg => sg ≡ₚ seq 0 2) (F l) /\ length (F l) = length l) /\
    forall c, choicesOk p c -> masksFresh p (cMask c) serverSet inputs ->
      drrnHits p enc aes prng (withSigmas c (F (cSigmas c))) serverSet bins' inputs = drrnHits p enc aes prng c serverSet bins inputs.
Proof. exact (two_hashes p enc aes prng serverSet bins bins' inputs). Qed.
Print Assumptions C179_two_hashes_partial.
Example C179_example : drrnHits exP exEnc exAes exPrng exC [104; 140] exBins1 [140; 300] = Some [1]%nat /\ drrnHits exP exEnc exAes exPrng exC [104; 140] exBins2 [140; 300] = Some [0]%nat /\
  drrnHits exP exEnc exAes exPrng (withSigmas exC [[0; 1]; [0; 1]]%nat) [104; 140] exBins2 [140; 300] = Some [1]%nat /\
  drrn exP exEnc exAes exPrng exC [104; 140] exBins1 [140; 300] = Some [0]%nat /\ masksFresh exP exMask [104; 140] [140; 300].
Proof. repeat split; try by vm_compute. apply exMask_fresh; repeat constructor. Qed.
