From Coq Require Import Reals.
From Verif Require Import Base BinProb_Spec BinProb_Proofs Masks_Model Masks_Spec Masks_Proofs Masks_Proofs2 Masks_Proofs3.
From Verif Require Prty_Model.
Local Open Scope N_scope.

Lemma weaken q m cs num den den' : chance_le q m cs (2 * num) (2 * den) -> den' <= den -> chance_le q m cs num den'.
Proof.
  unfold chance_le. intros H Hd. set (M := matchCount q m cs) in *. set (P := N.of_nat q ^ N.of_nat m) in *. clearbody M P.
  transitivity (M * den); [by apply N.mul_le_mono_l|]. replace (M * (2 * den)) with (2 * (M * den)) in H by lia. replace (2 * num * P) with (2 * (num * P)) in H by lia. lia.
Qed.
Lemma kkrt_bound ssp nS nR b own : N.of_nat nS * N.of_nat nR < 2 ^ 64 -> kkrtMaskBytes ssp (N.of_nat nS) (N.of_nat nR) = Done b -> length own = nR ->
  chance_le (maskValues b) (3 * nS) (tablePairs 3 nS own) 2 (2 ^ ssp).
Proof. intros Hs Hb Ho. eapply tables_bound; [exact Hb| |exact Ho]. by apply N.mod_small. Qed.
Lemma ecdh_bound ssp n b own : ssp <= 39 -> ecdhMaskBytes ssp (N.of_nat n) = Done b -> length own = n ->
  chance_le (maskValues b) n (allPairs n own) 1 (2 ^ ssp).
Proof.
  intros Hs Hb Ho. apply (weaken _ _ _ 1 (2 ^ 39)); [|by apply N.pow_le_mono_r]. change (2 * 1) with 2. change (2 * 2 ^ 39) with (2 ^ 40).
  eapply all_bound; [exact Hb| |exact Ho]. done.
Qed.
Lemma prty_bound ssp nT nM b own : ssp <= 39 -> N.of_nat nT * N.of_nat nM < 2 ^ 64 -> prtyMaskBytes ssp (N.of_nat nT) (N.of_nat nM) = Done b -> length own = nM ->
  chance_le (maskValues b) (2 * nT) (tablePairs 2 nT own) 1 (2 ^ ssp).
Proof.
  intros Hs Hm Hb Ho. apply (weaken _ _ _ 1 (2 ^ 39)); [|by apply N.pow_le_mono_r]. change (2 * 1) with 2. change (2 * 2 ^ 39) with (2 ^ 40).
  eapply tables_bound; [exact Hb| |exact Ho]. by apply N.mod_small.
Qed.
Lemma rr17_bound ssp n B b own : n * B < 2 ^ 64 -> rr17MaskBytes ssp n B = Done b -> length own = N.to_nat (n * B) ->
  chance_le (maskValues b) (N.to_nat (n * B)) (allPairs (N.to_nat (n * B)) own) (4 * (n * B)) (2 ^ ssp).
Proof.
  intros Hs Hb Ho. apply chance_upper; [apply maskValues_pos|]. rewrite allPairs_length, Ho, maskValues_N, Nat2N.inj_mul, N2Nat.id.
  pose proof (rr17_enough ssp n B b Hs Hb) as H. set (x := n * B) in *. set (s := 2 ^ ssp) in *. set (v := 2 ^ (8 * b)) in *. clearbody x s v.
  replace (x * x * s) with (x * (x * s)) by lia. replace (4 * x * v) with (x * (4 * v)) by lia. by apply N.mul_le_mono_l.
Qed.

Definition tagged (n : N) : list (nat * nat) := (fun v => (0%nat, v)) <$> seq 0 (N.to_nat n).
Lemma tagged_length n : length (tagged n) = N.to_nat n.
Proof. unfold tagged. by rewrite fmap_length, seq_length. Qed.
Lemma tagged_snd n : (tagged n).*2 = seq 0 (N.to_nat n).
Proof. unfold tagged. rewrite <- list_fmap_compose. rewrite <- (list_fmap_id (seq 0 (N.to_nat n))) at 2. by apply list_fmap_ext. Qed.
Lemma tagged_NoDup n : NoDup (tagged n).
Proof. unfold tagged. apply NoDup_fmap; [intros ?? E; by injection E|apply NoDup_seq]. Qed.
Lemma tagged_range h b n : (0 < h)%nat -> n <= 2 ^ (8 * b) -> Forall (fun o => o.1 < h /\ o.2 < maskValues b)%nat (tagged n).
Proof.
  intros Hh Hn. pose proof (seq_masks b n Hn) as H. rewrite Forall_forall in H. apply Forall_forall. intros o (v & -> & Hv)%elem_of_list_fmap. split; [done|by apply H].
Qed.
Lemma kkrt_witness : exists ssp nS nR b own, kkrtMaskBytes ssp (N.of_nat nS) (N.of_nat nR) = Done b /\ length own = nR /\ NoDup own.*2 /\
  Forall (fun o => o.1 < 3 /\ o.2 < maskValues b)%nat own /\ chance_gt (maskValues b) (3 * nS) (tablePairs 3 nS own) 1 (2 ^ ssp).
Proof.
  exists 40, (N.to_nat 5600), (N.to_nat 5600), 8, (tagged 5600).
  split; [rewrite !N2Nat.id; vm_compute; reflexivity|]. split; [apply tagged_length|]. split; [rewrite tagged_snd; apply NoDup_seq|].
  split; [apply tagged_range; [lia|done]|]. apply tables_exceeds; [lia|apply tagged_NoDup|apply tagged_range; [lia|done]|].
  rewrite tagged_length, !N2Nat.id. reflexivity.
Qed.
Lemma prty_witness : exists ssp nT nM b own, prtyMaskBytes ssp (N.of_nat nT) (N.of_nat nM) = Done b /\ length own = nM /\ NoDup own.*2 /\
  Forall (fun o => o.1 < 2 /\ o.2 < maskValues b)%nat own /\ chance_gt (maskValues b) (2 * nT) (tablePairs 2 nT own) 1 (2 ^ ssp).
Proof.
  exists 60, (N.to_nat (2 ^ 10)), (N.to_nat (2 ^ 10)), 8, (tagged (2 ^ 10)).
  split; [rewrite !N2Nat.id; vm_compute; reflexivity|]. split; [apply tagged_length|]. split; [rewrite tagged_snd; apply NoDup_seq|].
  split; [apply tagged_range; [lia|done]|]. apply tables_exceeds; [lia|apply tagged_NoDup|apply tagged_range; [lia|done]|].
  rewrite tagged_length, !N2Nat.id. reflexivity.
Qed.
Lemma ecdh_witness : exists ssp n b own, ecdhMaskBytes ssp (N.of_nat n) = Done b /\ length own = n /\ NoDup own /\
  Forall (fun v => v < maskValues b)%nat own /\ chance_gt (maskValues b) n (allPairs n own) 1 (2 ^ ssp).
Proof.
  exists 60, (N.to_nat (2 ^ 10)), 8, (seq 0 (N.to_nat (2 ^ 10))).
  split; [rewrite !N2Nat.id; vm_compute; reflexivity|]. split; [apply seq_length|]. split; [apply NoDup_seq|].
  split; [apply seq_masks; done|]. apply all_exceeds; [apply NoDup_seq|apply seq_masks; done|].
  rewrite seq_length, !N2Nat.id. reflexivity.
Qed.
Lemma rr17_witness : exists ssp n B b own, rr17MaskBytes ssp n B = Done b /\ length own = N.to_nat (n * B) /\ NoDup own /\
  Forall (fun v => v < maskValues b)%nat own /\ chance_gt (maskValues b) (N.to_nat (n * B)) (allPairs (N.to_nat (n * B)) own) (2 ^ 15) (2 ^ ssp).
Proof.
  exists 40, (2 ^ 20), 16, 9, (seq 0 (N.to_nat (2 ^ 20 * 16))).
  split; [apply bytes_witness|]. split; [apply seq_length|]. split; [apply NoDup_seq|].
  split; [apply seq_masks; done|]. apply chance_lower; [apply maskValues_pos|apply allPairs_NoDup, NoDup_seq| |].
  - apply Forall_forall. intros [j v] [Hj Hin]%elem_allPairs. split; [done|]. revert v Hin. apply Forall_forall, seq_masks. done.
  - rewrite allPairs_length, maskValues_N, seq_length, Nat2N.inj_mul, N2Nat.id. reflexivity.
Qed.

Lemma prty_run_bytes ssp nT nM b : prtyMaskBytes ssp nT nM = Done b <-> Prty_Model.hashBytes nT nM = Some (N.to_nat b).
Proof.
  unfold prtyMaskBytes, log2Bytes, Prty_Model.hashBytes. destruct (N.eqb_spec (nT * nM mod two64) 0) as [E|E]; [done|].
  replace (40 + N.log2 (nT * nM mod two64) + 7) with (47 + N.log2 (nT * nM mod two64)) by lia.
  set (k := (47 + N.log2 (nT * nM mod two64)) / 8). split; intros H; injection H as H; f_equal; lia.
Qed.
