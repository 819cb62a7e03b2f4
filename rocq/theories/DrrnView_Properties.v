(** Property theorems: what the servers of the PIR-PSI protocol learn about the client's set (C177, C178). *)
From Verif Require Import Base CuckooIndex_Model Bgi_Model Bgi_Spec Bgi_Properties Drrn_Model Drrn_Spec Drrn_Proofs DrrnTop_Proofs Drrn_Properties.
From Verif Require Import BgiPrivacy_Spec Order_Spec DrrnView_Model DrrnView_Spec DrrnView_Proofs DrrnView_Proofs2 DrrnView_Proofs3.

(** * C177 *)

(** From [pi0], its keys and the message of server 1, server 0 computes for every hash function [j] of every item [i] of the client the region of the
    queried slot and the server's item in that slot. *)
Theorem C177_learns p enc aes prng c serverSet bins inputs : sizesOk p -> length inputs = dN p -> queriesFit enc p inputs -> choicesOk p c -> tableOk enc p serverSet bins ->
  exists v, view0Of p enc aes prng c serverSet bins inputs = Some v /\ forall i j x, inputs !! i = Some x -> (j < dH p)%nat ->
    (exists b, learnedRegion p (cPi1 c) v i j = Some b /\ inRegion (dSlots p) (N.of_nat (dS p)) (N.of_nat b) (itemSlot enc (dSlots p) x j)) /\
    (regionsLead p bins -> learnedValue p aes (cMask c) (cPi1 c) serverSet bins v i j = Some (slotContent serverSet bins (itemSlot enc (dSlots p) x j))).
Proof. exact (server0_learns p enc aes prng c serverSet bins inputs). Qed.
Print Assumptions C177_learns.
(** A common item is in one of its slots, so server 0 computes all common items. *)
Theorem C177_common_learned p enc aes prng c serverSet bins inputs : sizesOk p -> length inputs = dN p -> queriesFit enc p inputs -> choicesOk p c -> tableOk enc p serverSet bins ->
  regionsLead p bins -> exists v, view0Of p enc aes prng c serverSet bins inputs = Some v /\
    forall i x, inputs !! i = Some x -> x ∈ serverSet -> exists j, (j < dH p)%nat /\ learnedValue p aes (cMask c) (cPi1 c) serverSet bins v i j = Some x.
Proof. exact (common_learned p enc aes prng c serverSet bins inputs). Qed.
Print Assumptions C177_common_learned.

(** Two sets of the client without common items: [pi0] tells them apart, whatever is drawn. *)
Theorem C177_hidden_refuted : exists p enc aes prng serverSet bins inputs inputs', sizesOk p /\ length inputs = dN p /\ length inputs' = dN p /\ NoDup inputs /\ NoDup inputs' /\
  queriesFit enc p inputs /\ queriesFit enc p inputs' /\ tableOk enc p serverSet bins /\ regionsLead p bins /\ (forall x, x ∈ serverSet -> x ∉ inputs /\ x ∉ inputs') /\
  (exists c, choicesOk p c) /\
  forall c c' v v', choicesOk p c -> choicesOk p c' -> cPi1 c' = cPi1 c ->
    view0Of p enc aes prng c serverSet bins inputs = Some v -> view0Of p enc aes prng c' serverSet bins inputs' = Some v' -> vPi0 v' <> vPi0 v.
Proof.
  exists exP, exEnc, exAes, exPrng, [104; 218], [packWord 0 0; e; packWord 1 0; e; e; e; e; e], [140; 300], [74; 152].
  assert (tableOk exEnc exP [104; 218] [packWord 0 0; e; packWord 1 0; e; e; e; e; e]) as Ht by exTab.
  split; [exact exP_sizes|]. split; [done|]. split; [done|]. split; [exNot|]. split; [exNot|]. split; [apply exFit|]. split; [apply exFit|]. split; [exact Ht|]. split.
  { intros b c w Hc Hw Hr. exists 0%nat, (packWord 0 0). split; [done|]. split; [by vm_compute|]. unfold inRegion in *. cbn in *.
    assert (c < 3)%nat. { apply lookup_lt_Some in Hc as L. cbn in L. destruct (decide (c < 3)%nat) as [|n]; [done|]. exfalso. apply Hw. do 8 (destruct c as [|c]; [first [by injection Hc as <-|lia]|]). lia. }
    split; lia. }
  split. { intros x Hx. do 2 (apply elem_of_cons in Hx as [->|Hx]; [split; exNot|]). by apply elem_of_nil in Hx. }
  split; [exists exC; exact exC_ok|]. intros c c' v v' Hc Hc' Hp.
  apply (regions_differ exP exEnc exAes exPrng c c' [104; 218] [packWord 0 0; e; packWord 1 0; e; e; e; e; e] [140; 300] [74; 152] v v' 0 0 140 74); try done; [exact exP_sizes|apply exFit|apply exFit|cbn; lia|].
  intros b. unfold inRegion. vm_compute (itemSlot exEnc (dSlots exP) 140 0). vm_compute (itemSlot exEnc (dSlots exP) 74 0). cbn. lia.
Qed.
Print Assumptions C177_hidden_refuted.

(** What server 0 gets: the keys as functions of one root and one tape for every query. *)
Theorem C177_view p enc aes prng c serverSet bins inputs D G : sizesOk p -> length inputs = dN p -> queriesFit enc p inputs -> choicesOk p c -> tableOk enc p serverSet bins ->
  (forall b x, x < 2 ^ 128 -> aes b x < 2 ^ 128) -> domainParams (dSlots p) (N.of_nat (dS p)) 1 = Done (D, G) ->
  exists v root tapes, view0Of p enc aes prng c serverSet bins inputs = Some v /\ (forall q, legalTape (N.to_nat D) (N.to_nat G) (tapes q)) /\
    vKeys v = keysView aes enc p (N.to_nat D) (N.to_nat G) inputs root tapes.
Proof. exact (view0_tapes p enc aes prng c serverSet bins inputs D G). Qed.
Print Assumptions C177_view.
(** Missing: pairs of sets whose queries go to different regions. If query by query the regions agree, then with uniform tapes the keys have the
    same distribution for both sets; *)
Theorem C177_keys_partial p enc aes inputs inputs' depth gs : sizesOk p -> length inputs = dN p -> length inputs' = dN p -> queriesFit enc p inputs -> queriesFit enc p inputs' ->
  (forall b x, x < 2 ^ 128 -> aes b x < 2 ^ 128) -> N.of_nat gs < 2 ^ 64 ->
  (forall q b, (q < dN p * dH p)%nat -> inRegion (dSlots p) (N.of_nat (dS p)) b (querySlot enc p inputs q) -> inRegion (dSlots p) (N.of_nat (dS p)) b (querySlot enc p inputs' q)) ->
  forall root, exists f, (forall q, permutesTapes depth gs (f q)) /\
    forall tapes, keysView aes enc p depth gs inputs' root (fun q => f q (tapes q)) = keysView aes enc p depth gs inputs root tapes.
Proof. exact (fun H1 H2 H3 H4 H5 H6 => hidden_regions p enc aes exPrng exC inputs inputs' H1 H2 H3 H4 H5 H6 depth gs). Qed.
Print Assumptions C177_keys_partial.
(** and if the queried slots also hold the same items, the rest of what server 0 receives is determined by its keys. *)
Theorem C177_rest_partial p enc aes prng c c' serverSet bins inputs inputs' v v' : sizesOk p -> length inputs = dN p -> length inputs' = dN p -> queriesFit enc p inputs -> queriesFit enc p inputs' ->
  choicesOk p c -> choicesOk p c' -> tableOk enc p serverSet bins -> regionsLead p bins ->
  (forall q b, (q < dN p * dH p)%nat -> inRegion (dSlots p) (N.of_nat (dS p)) b (querySlot enc p inputs q) -> inRegion (dSlots p) (N.of_nat (dS p)) b (querySlot enc p inputs' q)) ->
  (forall q, (q < dN p * dH p)%nat -> slotContent serverSet bins (querySlot enc p inputs' q) = slotContent serverSet bins (querySlot enc p inputs q)) ->
  cPi1 c' = cPi1 c -> cSigmas c' = cSigmas c -> cMask c' = cMask c ->
  view0Of p enc aes prng c serverSet bins inputs = Some v -> view0Of p enc aes prng c' serverSet bins inputs' = Some v' -> vKeys v' = vKeys v -> v' = v.
Proof. exact (rest_determined p enc aes prng c c' serverSet bins inputs inputs' v v'). Qed.
Print Assumptions C177_rest_partial.

Definition exBins : list N := [packWord 0 0; e; packWord 2 0; e; packWord 1 0; e; e; e].
Definition exSet : list N := [104; 140; 218].
Example C177_example : exists v, view0Of exP exEnc exAes exPrng exC exSet exBins [140; 300] = Some v /\
  map (fun ij => learnedRegion exP (cPi1 exC) v (fst ij) (snd ij)) [(0, 0); (0, 1); (1, 0); (1, 1)]%nat = [Some 1; Some 0; Some 1; Some 1]%nat /\
  map (fun ij => learnedValue exP exAes exMask (cPi1 exC) exSet exBins v (fst ij) (snd ij)) [(0, 0); (0, 1); (1, 0); (1, 1)]%nat = [Some 140; Some 0; Some 140; Some 0] /\
  domainParams 8 2 1 = Done (0, 1) /\ (forall b x, x < 2 ^ 128 -> exAes b x < 2 ^ 128).
Proof.
  eexists. split; [vm_compute; reflexivity|]. split; [by vm_compute|]. split; [by vm_compute|]. split; [by vm_compute|]. intros b x _. by apply N.mod_lt.
Qed.
(** Two sets whose queries go to the same regions and read the same items; the slots differ, and only one of the sets has a common item. *)
Example C177_example_partial :
  Forall (fun q => regionOf 8 2 (querySlot exEnc exP [92; 188] q) = regionOf 8 2 (querySlot exEnc exP [140; 300] q) /\
    slotContent exSet exBins (querySlot exEnc exP [92; 188] q) = slotContent exSet exBins (querySlot exEnc exP [140; 300] q)) (seq 0 4) /\
  map (querySlot exEnc exP [140; 300]) (seq 0 4) = [4; 1; 4; 5] /\ map (querySlot exEnc exP [92; 188]) (seq 0 4) = [4; 3; 4; 7] /\
  queriesFit exEnc exP [140; 300] /\ queriesFit exEnc exP [92; 188] /\ tableOk exEnc exP exSet exBins /\ choicesOk exP exC.
Proof.
  split; [apply (bool_decide_eq_true_1 _); by vm_compute|]. split; [by vm_compute|]. split; [by vm_compute|]. split; [apply exFit|]. split; [apply exFit|]. split; [exTab|exact exC_ok].
Qed.

(** * C178 *)

(** Server 1 counts the client's queries to every region: the keys of the others are zero. *)
Theorem C178_learns p enc aes prng c inputs : sizesOk p -> length inputs = dN p -> queriesFit enc p inputs ->
  (forall q, (q < dN p * dH p)%nat -> (prng (cSeed c q)).2 <> 0) ->
  exists keys, view1Of p enc aes prng c inputs = Some keys /\ forall b, (b < dS p)%nat -> learnedLoad keys b = load enc p inputs b.
Proof. exact (server1_loads p enc aes prng c inputs). Qed.
Print Assumptions C178_learns.
(** Two sets of the client that no choice of seeds (with roots other than zero) makes equal for server 1. *)
Theorem C178_hidden_refuted : exists p enc aes prng inputs inputs', sizesOk p /\ length inputs = dN p /\ length inputs' = dN p /\ NoDup inputs /\ NoDup inputs' /\
  queriesFit enc p inputs /\ queriesFit enc p inputs' /\ (exists c, choicesOk p c /\ forall q, (q < dN p * dH p)%nat -> (prng (cSeed c q)).2 <> 0) /\
  forall c c' keys keys', (forall q, (q < dN p * dH p)%nat -> (prng (cSeed c q)).2 <> 0) -> (forall q, (q < dN p * dH p)%nat -> (prng (cSeed c' q)).2 <> 0) ->
    view1Of p enc aes prng c inputs = Some keys -> view1Of p enc aes prng c' inputs' = Some keys' -> keys' <> keys.
Proof.
  exists exP, exEnc, exAes, exPrng, [140; 300], [74; 152]. split; [exact exP_sizes|]. split; [done|]. split; [done|]. split; [exNot|]. split; [exNot|]. split; [apply exFit|]. split; [apply exFit|]. split.
  { exists exC. split; [exact exC_ok|]. intros q Hq. cbn in Hq. do 4 (destruct q as [|q]; [by vm_compute|]). lia. }
  intros c c' keys keys' Hc Hc' Hk Hk' ->.
  destruct (server1_loads exP exEnc exAes exPrng c [140; 300] exP_sizes eq_refl (exFit 140 300) Hc) as (k1 & Hk1 & L1). rewrite Hk in Hk1. injection Hk1 as <-.
  destruct (server1_loads exP exEnc exAes exPrng c' [74; 152] exP_sizes eq_refl (exFit 74 152) Hc') as (k2 & Hk2 & L2). rewrite Hk' in Hk2. injection Hk2 as <-.
  specialize (L1 0%nat ltac:(cbn; lia)). specialize (L2 0%nat ltac:(cbn; lia)). rewrite L1 in L2. by vm_compute in L2.
Qed.
Print Assumptions C178_hidden_refuted.
Theorem C178_view p enc aes prng c inputs D G : sizesOk p -> length inputs = dN p -> queriesFit enc p inputs -> (forall b x, x < 2 ^ 128 -> aes b x < 2 ^ 128) ->
  domainParams (dSlots p) (N.of_nat (dS p)) 1 = Done (D, G) ->
  exists root tapes, (forall q, legalTape (N.to_nat D) (N.to_nat G) (tapes q)) /\ view1Of p enc aes prng c inputs = Some (keysView aes enc p (N.to_nat D) (N.to_nat G) inputs root tapes).
Proof. exact (view1_tapes p enc aes prng c inputs D G). Qed.
Print Assumptions C178_view.
(** Missing: pairs of sets with different numbers of queries to some region. If the numbers agree, then with uniform roots and tapes the keys have the
    same distribution for both sets. *)
Theorem C178_hidden_partial p enc aes inputs inputs' depth gs : sizesOk p -> length inputs = dN p -> length inputs' = dN p -> queriesFit enc p inputs -> queriesFit enc p inputs' ->
  (forall b x, x < 2 ^ 128 -> aes b x < 2 ^ 128) -> N.of_nat gs < 2 ^ 64 -> (forall b, (b < dS p)%nat -> load enc p inputs' b = load enc p inputs b) ->
  exists h, relabels (dN p * dH p) h /\ forall root, exists f, (forall q, permutesTapes depth gs (f q)) /\
    forall tapes, keysView aes enc p depth gs inputs' (fun q => root (h q)) (fun q => f q (tapes (h q))) = keysView aes enc p depth gs inputs root tapes.
Proof. exact (fun H1 H2 H3 H4 H5 H6 => hidden_loads p enc aes exPrng exC inputs inputs' H1 H2 H3 H4 H5 H6 depth gs). Qed.
Print Assumptions C178_hidden_partial.
Example C178_example : exists keys, view1Of exP exEnc exAes exPrng exC [140; 300] = Some keys /\ map (learnedLoad keys) [0; 1]%nat = [1; 3]%nat /\
  map (load exEnc exP [140; 300]) [0; 1]%nat = [1; 3]%nat /\ map (load exEnc exP [188; 92]) [0; 1]%nat = [1; 3]%nat /\ map (load exEnc exP [74; 152]) [0; 1]%nat = [4; 0]%nat /\
  queriesTo exEnc exP [140; 300] 0 = [1]%nat /\ queriesTo exEnc exP [188; 92] 0 = [3]%nat.
Proof. eexists. split; [vm_compute; reflexivity|]. repeat split; by vm_compute. Qed.
