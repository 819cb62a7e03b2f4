(** Property theorems about PIR-PSI (C26 to C31, C82 to C84). *)
From Verif Require Import Base CuckooIndex_Model Bgi_Model Bgi_Spec Bgi_Properties Drrn_Model Drrn_Spec Drrn_Proofs DrrnMask_Proofs DrrnClient_Proofs
  DrrnServer_Proofs DrrnRun_Proofs DrrnTop_Proofs.

(** * C26 *)

Theorem C26_slot_partition slots regions slot : 0 < regions -> slot < slots -> (slots + 1) * (regions + 1) + 128 <= two64 ->
  let b := regionOf slots regions slot in
  b < regions /\ inRegion slots regions b slot /\ (forall b', inRegion slots regions b' slot -> b' = b) /\
  (forall b', b' < regions -> (regionBounds slots regions 1 b').1 <= slot < (regionBounds slots regions 1 b').2 <-> b' = b) /\
  queryPosition slots regions 1 b slot = (slot - firstSlot slots regions b, 0) /\ firstSlot slots regions b <= slot /\
  (regionBounds slots regions 1 b).1 = firstSlot slots regions b /\
  exists d g, domainParams slots regions 1 = Done (d, g) /\ slot - firstSlot slots regions b < 2 ^ d * g * 128.
Proof. exact (slot_partition slots regions slot). Qed.
Print Assumptions C26_slot_partition.
(** The specified first slot is the least slot of its part. *)
Theorem C26_first_slot slots regions b c : 0 < regions -> inRegion slots regions b c ->
  inRegion slots regions b (firstSlot slots regions b) /\ forall c', inRegion slots regions b c' -> firstSlot slots regions b <= c'.
Proof. exact (firstSlot_in slots regions b c). Qed.
Print Assumptions C26_first_slot.
Example C26_example : regionOf 1000 7 429 = 3 /\ regionBounds 1000 7 1 3 = (429, 572) /\ queryPosition 1000 7 1 3 429 = (0, 0) /\
  (1000 + 1) * (7 + 1) + 128 <= two64 /\ inRegion 1000 7 3 429 /\ ~ inRegion 1000 7 2 429.
Proof. repeat split; try (by vm_compute); try (vm_compute; intros [A B]; by apply A). Qed.

(** * C27 *)

Theorem C27_domain_covers slots regions B : 0 < slots -> 0 < regions -> 0 < B -> (slots + 1) * (regions + 1) + B * 128 <= two64 ->
  exists d g, domainParams slots regions B = Done (d, g) /\ 0 < g <= 8 /\
    (forall b, b < regions -> (regionBounds slots regions B b).1 <= (regionBounds slots regions B b).2 /\
       (regionBounds slots regions B b).2 - (regionBounds slots regions B b).1 <= 2 ^ d * g * 128 * B) /\
    (forall slot, slot < slots -> (queryPosition slots regions B (regionOf slots regions slot) slot).1 < 2 ^ d * g * 128 /\
       (queryPosition slots regions B (regionOf slots regions slot) slot).2 < B).
Proof. exact (domain_covers slots regions B). Qed.
Print Assumptions C27_domain_covers.
Example C27_example : domainParams 100000 7 8 = Done (1, 7) /\ regionBounds 100000 7 8 3 = (42864, 57144) /\
  57144 - 42864 <= 2 ^ 1 * 7 * 128 * 8 /\ (100000 + 1) * (7 + 1) + 8 * 128 <= two64 /\ ~ 57144 - 42864 <= 2 ^ 1 * 6 * 128 * 8.
Proof. repeat split; by vm_compute. Qed.

(** * C28 *)

Theorem C28_masked_answers (H P : nat) (sigmas : list (list nat)) (pi pi1 : list nat) (r piS1 s sh0 sh1 : list N) :
  (0 < H)%nat -> Forall (fun sg => sg ≡ₚ seq 0 H) sigmas -> (length sigmas * H <= P)%nat -> pi1 ≡ₚ seq 0 P -> pi ≡ₚ seq 0 P ->
  length r = P -> length piS1 = P -> length s = P -> length sh0 = P -> length sh1 = P ->
  exists r' pi0 piS0 rs final, sigmaMasks 0 sigmas r = Some r' /\ clientPerm pi pi1 piS1 s = Some (pi0, piS0) /\ maskMessage pi1 r' s = Some rs /\
    server0Input sh0 (server1Message sh1 piS1) rs pi0 piS0 = Some final /\ length final = P /\
    (forall k, (k < length sigmas)%nat -> itemMasks H k r' ≡ₚ itemMasks H k r) /\
    (forall k, (length sigmas * H <= k)%nat -> r' !! k = r !! k) /\
    (forall i a b k m, sh0 !! i = Some a -> sh1 !! i = Some b -> pi !! i = Some k -> r' !! k = Some m -> final !! i = Some (N.lxor (N.lxor a b) m)) /\
    (forall i a b k j, sh0 !! i = Some a -> sh1 !! i = Some b -> pi !! i = Some (k * H + j)%nat -> (k < length sigmas)%nat -> (j < H)%nat ->
       exists m, m ∈ itemMasks H k r /\ final !! i = Some (N.lxor (N.lxor a b) m)).
Proof. exact (masked_answers H P sigmas pi pi1 r piS1 s sh0 sh1). Qed.
Print Assumptions C28_masked_answers.
(** Two items with two queries each and one dummy. *)
Example C28_example : Forall (fun sg => sg ≡ₚ seq 0 2) [[1; 0]; [0; 1]]%nat /\ [3; 1; 0; 4; 2]%nat ≡ₚ seq 0 5 /\
  exists r' pi0 piS0 rs, sigmaMasks 0 [[1; 0]; [0; 1]]%nat [10; 20; 30; 40; 50] = Some r' /\ r' = [20; 10; 30; 40; 50] /\
  clientPerm [2; 0; 4; 1; 3]%nat [3; 1; 0; 4; 2]%nat [101; 102; 103; 104; 105] [1001; 1002; 1003; 1004; 1005] = Some (pi0, piS0) /\
  maskMessage [3; 1; 0; 4; 2]%nat r' [1001; 1002; 1003; 1004; 1005] = Some rs /\
  server0Input [5; 6; 7; 8; 9] (server1Message [50; 60; 70; 80; 90] [101; 102; 103; 104; 105]) rs pi0 piS0 =
    Some [N.lxor (N.lxor 5 50) 30; N.lxor (N.lxor 6 60) 20; N.lxor (N.lxor 7 70) 50; N.lxor (N.lxor 8 80) 10; N.lxor (N.lxor 9 90) 40].
Proof.
  split; [|split; [|eexists _, _, _, _; repeat split; by vm_compute]].
  - constructor; [apply Permutation_swap|constructor; [done|constructor]].
  - apply perm_check; [apply (bool_decide_eq_true_1 _)|..]; by vm_compute.
Qed.

(** * C29 *)

Definition exHash (x : N) : N := x mod 8 + 2 ^ 16 * (x / 8 mod 8).
Definition exEnc (x : N) : N := N.lxor (exHash x) x.
Definition exMask (k : N) : N := 2 ^ 40 * (k + 1).
Definition exP : dparams := mkDrrn 2 2 8 2 4 1.
Definition exC : dchoices := mkChoices exMask (fun q => N.of_nat q + 9) [3; 1; 0; 2; 7; 6; 5; 4]%nat [[1; 0]; [0; 1]]%nat [1; 0]%nat [0; 1]%nat.
Definition exKeys : list (list (list N * list N)) := replicate 2 [([5], [3]); ([6], [4]); ([7], [5]); ([8], [6])].
Definition e : N := emptyWord.
Lemma exP_sizes : sizesOk exP.
Proof. unfold sizesOk. cbn. repeat split; try lia; by vm_compute. Qed.
Lemma exKeys_ok : keysOk exP exKeys.
Proof. exists 0, 1. split; [by vm_compute|]. split; [done|]. split; repeat constructor. Qed.

(** One item, in the second slot of the first part: the servers read the key at position 0 instead of 1. *)
Theorem C29_region_shares_refuted : exists p aes keys data order, sizesOk p /\ sortedTable data /\ keysOk p keys /\ order ≡ₚ seq 0 (dS p) /\
  exists sh, serverShares p aes keys data order = Some sh /\
    sh <> concat (imap (fun b ks => map (regionShare aes (dSlots p) (N.of_nat (dS p)) data (N.of_nat b)) ks) keys).
Proof.
  exists exP, exAes, exKeys, [(77, 1)], [0; 1]%nat. split; [exact exP_sizes|]. split; [repeat constructor|]. split; [exact exKeys_ok|]. split; [done|].
  eexists. split; [by vm_compute|]. by vm_compute.
Qed.
Print Assumptions C29_region_shares_refuted.

(** Missing: parts whose first slot is empty while others are occupied. *)
Theorem C29_region_shares_partial p aes keys data order : sizesOk p -> sortedTable data -> keysOk p keys -> order ≡ₚ seq 0 (dS p) ->
  (forall b e, (b < dS p)%nat -> e ∈ data -> inRegion (dSlots p) (N.of_nat (dS p)) (N.of_nat b) e.2 ->
     exists v, (v, firstSlot (dSlots p) (N.of_nat (dS p)) (N.of_nat b)) ∈ data) ->
  serverShares p aes keys data order =
    Some (concat (imap (fun b ks => map (regionShare aes (dSlots p) (N.of_nat (dS p)) data (N.of_nat b)) ks) keys)).
Proof. exact (shares_spec p aes keys data order). Qed.
Print Assumptions C29_region_shares_partial.
Example C29_example : sortedTable [(77, 0); (78, 1); (79, 3); (80, 4); (81, 7)] /\
  exists sh, serverShares exP exAes exKeys [(77, 0); (78, 1); (79, 3); (80, 4); (81, 7)] [1; 0]%nat = Some sh /\ length sh = 8%nat /\ NoDup (take 2 sh).
Proof.
  split; [repeat constructor|]. eexists. split; [by vm_compute|]. split; [done|]. apply (bool_decide_eq_true_1 _). by vm_compute.
Qed.

(** * C30 *)

Theorem C30_find data c : sortedTable data -> find data c = Done (N.of_nat (length (filter (fun e : N * N => e.2 < c) data))).
Proof. exact (find_ok data c). Qed.
Print Assumptions C30_find.
Example C30_example : sortedTable [(77, 1); (78, 5); (79, 6)] /\ find [(77, 1); (78, 5); (79, 6)] 6 = Done 2 /\ find [(77, 1); (78, 5); (79, 6)] 7 = Done 3 /\
  find [(77, 1); (78, 5); (79, 6)] 2 = Done 1 /\ find [] 2 = Done 0.
Proof. split; [repeat constructor|]. repeat split; by vm_compute. Qed.

(** * C31 *)

Definition exP8 : dparams := mkDrrn 2 2 8 1 4 8.
Definition exC8 : dchoices := mkChoices exMask (fun q => N.of_nat q + 9) (seq 0 32) [[0; 1]; [0; 1]]%nat [0]%nat [0]%nat.
(** The default block size 8: queries of two different items share a mask, and the positions are no permutation. *)
Theorem C31_positions_refuted : exists p enc aes prng c inputs rows, length inputs = dN p /\ clientLayout p enc aes prng c inputs = Some rows /\
  ~ piOf p rows ≡ₚ seq 0 (permSize p) /\
  exists x y i j u v, x ∈ concat rows /\ y ∈ concat rows /\ qReal x = Some (i, u) /\ qReal y = Some (j, v) /\ i ≠ j /\ qPi x = qPi y.
Proof.
  exists exP8, exEnc, exAes, exPrng, exC8, [65; 158]. destruct (clientLayout exP8 exEnc exAes exPrng exC8 [65; 158]) as [rows|] eqn:E; [|by vm_compute in E].
  exists rows. vm_compute in E. injection E as <-. split; [done|]. split; [done|]. split.
  - intros HP. assert (NoDup (seq 0 (permSize exP8))) as ND by apply NoDup_seq. rewrite <- HP in ND. revert ND. apply (bool_decide_eq_false_1 _). by vm_compute.
  - eexists _, _, 0%nat, 1%nat, _, _. split; [right; left|]. split; [right; right; left|]. split; [done|]. split; [done|]. split; done.
Qed.
Print Assumptions C31_positions_refuted.

(** Missing: block sizes other than one. *)
Theorem C31_positions_partial p enc aes prng c inputs : sizesOk p -> length inputs = dN p -> queriesFit enc p inputs ->
  exists rows, clientLayout p enc aes prng c inputs = Some rows /\ piOf p rows ≡ₚ seq 0 (permSize p) /\ length rows = dS p /\
    Forall (fun row => length row = dBin p) rows.
Proof. exact (positions_ok p enc aes prng c inputs). Qed.
Print Assumptions C31_positions_partial.
Example C31_example : queriesFit exEnc exP [140; 300] /\ exists rows, clientLayout exP exEnc exAes exPrng exC [140; 300] = Some rows /\
  map (map qPi) rows = [[1; 4; 5; 6]; [0; 2; 3; 7]].
Proof.
  split; [|eexists; by vm_compute]. intros b. etrans; [apply filter_length|]. by vm_compute.
Qed.

(** * C82 *)

Theorem C82_threads (regions T : nat) : (0 < T)%nat -> concat (map (threadBins regions T) (seq 0 T)) ≡ₚ seq 0 regions.
Proof. exact (threadBins_ok regions T). Qed.
Print Assumptions C82_threads.
Theorem C82_order p aes keys data order : sizesOk p -> sortedTable data -> keysOk p keys -> order ≡ₚ seq 0 (dS p) ->
  exists sh, length sh = (dS p * dBin p)%nat /\ serverShares p aes keys data order = Some sh /\ serverShares p aes keys data (seq 0 (dS p)) = Some sh.
Proof. exact (shares_order p aes keys data order). Qed.
Print Assumptions C82_order.
Example C82_example : map (threadBins 7 3) (seq 0 3) = [[0; 3; 6]; [1; 4]; [2; 5]]%nat /\ sizesOk exP /\ keysOk exP exKeys /\ sortedTable [(77, 1); (78, 5)] /\
  exists sh, serverShares exP exAes exKeys [(77, 1); (78, 5)] [1; 0]%nat = Some sh /\ sh <> replicate 8 0.
Proof.
  split; [done|]. split; [exact exP_sizes|]. split; [exact exKeys_ok|]. split; [repeat constructor|]. eexists. split; by vm_compute.
Qed.

(** * C83 *)

Lemma exC_ok : choicesOk exP exC.
Proof.
  unfold choicesOk. split; [|split; [done|]].
  - apply perm_check; [apply (bool_decide_eq_true_1 _)|..]; by vm_compute.
  - split; [|split; [apply Permutation_swap|done]]. constructor; [apply Permutation_swap|constructor; [done|constructor]].
Qed.
Lemma exMask_fresh p s t : Forall (fun x => x < 2 ^ 40) s -> Forall (fun x => x < 2 ^ 40) t -> masksFresh p exMask s t.
Proof.
  intros HS HT k k' v x _ _ Hv Hx E. rewrite Forall_forall in HS, HT. specialize (HT x Hx).
  assert (v < 2 ^ 40) as Hv' by (apply elem_of_cons in Hv as [->|Hv]; [done|by apply HS]).
  apply (f_equal (fun z => N.shiftr z 40)) in E. rewrite !N.shiftr_lxor in E. unfold exMask in E.
  rewrite !N.shiftr_div_pow2 in E. rewrite (N.div_small v), (N.div_small x) in E by done. rewrite !(N.mul_comm (2 ^ 40)), !N.div_mul in E by done.
  rewrite N.lxor_0_l, N.lxor_0_r in E. lia.
Qed.
Lemma exFit x y : queriesFit exEnc exP [x; y].
Proof. intros b. etrans; [apply filter_length|]. done. Qed.
Ltac exTab := split; [done|split; [apply perm_check; [apply (bool_decide_eq_true_1 _)|..]; by vm_compute|]];
  intros c w x Hc Hw Hx; do 8 (destruct c as [|c]; [injection Hc as <-; first [by exfalso; apply Hw|vm_compute in Hx; injection Hx as <-;
    first [exists 0%nat; split; [cbn; lia|by vm_compute]|exists 1%nat; split; [cbn; lia|by vm_compute]]]|]); done.
Ltac exNot := apply (bool_decide_eq_true_1 _); by vm_compute.

(** Block size one; the item is stored in the third slot of its part, the first two are empty. *)
Theorem C83_exact_refuted : exists p enc aes prng c serverSet bins inputs, sizesOk p /\ length inputs = dN p /\ queriesFit enc p inputs /\
  choicesOk p c /\ tableOk enc p serverSet bins /\ masksFresh p (cMask c) serverSet inputs /\ 0 ∉ inputs /\
  exists out i x, drrn p enc aes prng c serverSet bins inputs = Some out /\ inputs !! i = Some x /\ x ∈ serverSet /\ i ∉ out.
Proof.
  exists exP, exEnc, exAes, exPrng, exC, [218], [e; e; packWord 0 0; e; e; e; e; e], [218; 300].
  split; [exact exP_sizes|]. split; [done|]. split; [apply exFit|]. split; [exact exC_ok|]. split; [exTab|].
  split; [apply exMask_fresh; repeat constructor|]. split; [exNot|]. exists [], 0%nat, 218. split; [by vm_compute|]. split; [done|]. split; [left|exNot].
Qed.
Print Assumptions C83_exact_refuted.

(** The default block size, 8; the first slot is occupied. *)
Theorem C83_exact_block_refuted : exists p enc aes prng c serverSet bins inputs, dB p = 8%nat /\ length inputs = dN p /\ queriesFit enc p inputs /\
  choicesOk p c /\ tableOk enc p serverSet bins /\ regionsLead p bins /\ masksFresh p (cMask c) serverSet inputs /\ 0 ∉ inputs /\
  exists out i x, drrn p enc aes prng c serverSet bins inputs = Some out /\ inputs !! i = Some x /\ x ∈ serverSet /\ i ∉ out.
Proof.
  exists exP8, exEnc, exAes, exPrng, exC8, [104; 218], [packWord 0 0; e; packWord 1 0; e; e; e; e; e], [104; 300].
  split; [done|]. split; [done|]. split; [intros b; etrans; [apply filter_length|]; done|]. split.
  { split; [done|]. split; [done|]. split; [repeat constructor|]. done. }
  split; [exTab|]. split.
  { intros b c w Hc Hw Hr. exists 0%nat, (packWord 0 0). split; [done|]. split; [by vm_compute|]. unfold inRegion in *. cbn in *.
    assert (c < 8)%nat by (apply lookup_lt_Some in Hc; done). split; lia. }
  split; [apply exMask_fresh; repeat constructor|]. split; [exNot|]. exists [], 0%nat, 104. split; [by vm_compute|]. split; [done|]. split; [left|exNot].
Qed.
Print Assumptions C83_exact_block_refuted.

(** Missing: other block sizes, parts whose first slot is empty while others are occupied, and the client item zero. *)
Theorem C83_exact_partial p enc aes prng c serverSet bins inputs : sizesOk p -> length inputs = dN p -> queriesFit enc p inputs -> choicesOk p c ->
  tableOk enc p serverSet bins -> masksFresh p (cMask c) serverSet inputs -> 0 ∉ inputs -> regionsLead p bins ->
  exists out, drrn p enc aes prng c serverSet bins inputs = Some out /\ NoDup out /\
    forall i, i ∈ out <-> exists x, inputs !! i = Some x /\ x ∈ serverSet.
Proof. exact (run_exact p enc aes prng c serverSet bins inputs). Qed.
Print Assumptions C83_exact_partial.
Example C83_example : sizesOk exP /\ queriesFit exEnc exP [140; 300] /\ choicesOk exP exC /\
  tableOk exEnc exP [104; 140; 218] [packWord 0 0; e; packWord 2 0; e; packWord 1 0; e; e; e] /\
  masksFresh exP exMask [104; 140; 218] [140; 300] /\ regionsLead exP [packWord 0 0; e; packWord 2 0; e; packWord 1 0; e; e; e] /\
  drrn exP exEnc exAes exPrng exC [104; 140; 218] [packWord 0 0; e; packWord 2 0; e; packWord 1 0; e; e; e] [140; 300] = Some [0%nat].
Proof.
  split; [exact exP_sizes|]. split; [apply exFit|]. split; [exact exC_ok|]. split; [exTab|]. split; [apply exMask_fresh; repeat constructor|].
  split; [|by vm_compute]. intros b c w Hc Hw Hr. unfold inRegion in *. cbn in Hr |- *. assert (c < 8)%nat by (apply lookup_lt_Some in Hc; done).
  destruct (decide (b = 0)) as [->|Hb].
  - exists 0%nat, (packWord 0 0). split; [done|]. split; [by vm_compute|]. split; lia.
  - assert (b = 1) as -> by lia. exists 4%nat, (packWord 1 0). split; [done|]. split; [by vm_compute|]. split; lia.
Qed.

(** * C84 *)

(** The client's item zero: a query of an empty slot retrieves zero. *)
Theorem C84_sound_refuted : exists p enc aes prng c serverSet bins inputs, sizesOk p /\ length inputs = dN p /\ queriesFit enc p inputs /\
  choicesOk p c /\ tableOk enc p serverSet bins /\ masksFresh p (cMask c) serverSet inputs /\
  exists out i x, drrn p enc aes prng c serverSet bins inputs = Some out /\ i ∈ out /\ inputs !! i = Some x /\ x ∉ serverSet.
Proof.
  exists exP, exEnc, exAes, exPrng, exC, [140], [e; e; e; e; packWord 0 0; e; e; e], [0; 300].
  split; [exact exP_sizes|]. split; [done|]. split; [apply exFit|]. split; [exact exC_ok|]. split; [exTab|].
  split; [apply exMask_fresh; repeat constructor|]. exists [0%nat], 0%nat, 0. split; [by vm_compute|]. split; [left|]. split; [done|exNot].
Qed.
Print Assumptions C84_sound_refuted.

(** Any table, whether or not the first slots are occupied. Missing: the client item zero, and other block sizes. *)
Theorem C84_sound_partial p enc aes prng c serverSet bins inputs : sizesOk p -> length inputs = dN p -> queriesFit enc p inputs -> choicesOk p c ->
  tableOk enc p serverSet bins -> masksFresh p (cMask c) serverSet inputs -> 0 ∉ inputs ->
  exists out, drrn p enc aes prng c serverSet bins inputs = Some out /\ forall i, i ∈ out -> exists x, inputs !! i = Some x /\ x ∈ serverSet.
Proof. exact (run_sound p enc aes prng c serverSet bins inputs). Qed.
Print Assumptions C84_sound_partial.
Example C84_example : tableOk exEnc exP [140; 218] [e; e; packWord 1 0; e; packWord 0 0; e; e; e] /\ masksFresh exP exMask [140; 218] [140; 300] /\ 0 ∉ [140; 300] /\
  drrn exP exEnc exAes exPrng exC [140; 218] [e; e; packWord 1 0; e; packWord 0 0; e; e; e] [140; 300] = Some [0%nat].
Proof. split; [exTab|]. split; [apply exMask_fresh; repeat constructor|]. split; [exNot|by vm_compute]. Qed.
