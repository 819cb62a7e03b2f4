(** The sizes of the fields of PRTY. *)
From Verif Require Import Base Prty_Model Prty_Spec Prty_Proofs BinProb_Model BinProb_Proofs BinProb_Proofs2 PrtyBits_Spec PrtyBits_Proofs.

Lemma families_size F (ys : list N) : sizeN (lists (bits F) (length ys)) = (2 ^ N.of_nat F) ^ sizeN ys.
Proof. by rewrite lists_size, bits_size. Qed.
Lemma size_check F j : (tailIter (N.of_nat F) 128 0 1 0 * 2 ^ (j + 40) <=? 2 ^ N.of_nat F) = true -> forall m, m <= 2 ^ j -> m * tailN F 128 * 2 ^ 40 <= 2 ^ N.of_nat F.
Proof.
  rewrite <- tail_num. intros H%N.leb_le m Hm. rewrite N.pow_add_r in H. apply N.le_trans with (2 := H). replace (tailN F 128 * (2 ^ j * 2 ^ 40)) with (2 ^ j * tailN F 128 * 2 ^ 40) by lia. by do 2 apply N.mul_le_mono_r.
Qed.
Lemma sizes_ok n m : m <= n -> n <= 2 ^ 20 \/ 2 ^ 22 < n <= 2 ^ 24 -> m * tailN (fieldSizeOf n) 128 * 2 ^ 40 <= 2 ^ N.of_nat (fieldSizeOf n).
Proof.
  intros Hm Hn. unfold fieldSizeOf.
  destruct (N.leb_spec n (2 ^ 10)); [apply (size_check 416 10); [by vm_compute|lia]|].
  destruct (N.leb_spec n (2 ^ 12)); [apply (size_check 420 12); [by vm_compute|lia]|].
  destruct (N.leb_spec n (2 ^ 14)); [apply (size_check 424 14); [by vm_compute|lia]|].
  destruct (N.leb_spec n (2 ^ 16)); [apply (size_check 428 16); [by vm_compute|lia]|].
  destruct (N.leb_spec n (2 ^ 18)); [apply (size_check 432 18); [by vm_compute|lia]|].
  destruct (N.leb_spec n (2 ^ 20)); [apply (size_check 436 20); [by vm_compute|lia]|].
  destruct (N.leb_spec n (2 ^ 22)); [lia|apply (size_check 444 24); [by vm_compute|lia]].
Qed.
Lemma weak_rare P n blks ys : sizeN ys <= n -> n <= 2 ^ 20 \/ 2 ^ 22 < n <= 2 ^ 24 -> NoDup ys -> (forall y z, y ∈ ys -> z ∈ blks y -> z ∉ ys) ->
  2 ^ 40 * sizeN (weakFamilies P (fieldSizeOf n) blks ys) <= sizeN (lists (bits (fieldSizeOf n)) (length ys)).
Proof.
  intros Hm Hn Hnd Hd. pose proof (heavy_count P (fieldSizeOf n) blks ys Hnd Hd) as E. rewrite families_size in *.
  apply (weak_upper _ (tailN (fieldSizeOf n) 128)); [apply tail_le| |done|by apply sizes_ok]. apply N.neq_0_lt_0, N.pow_nonzero. done.
Qed.
Lemma weak_often P F blks ys j : (2 ^ N.of_nat F <? (2 ^ 40 - 1) * (2 ^ j * tailIter (N.of_nat F) 128 0 1 0)) = true -> sizeN ys = 2 ^ j -> NoDup ys -> (forall y z, y ∈ ys -> z ∈ blks y -> z ∉ ys) ->
  sizeN (lists (bits F) (length ys)) < 2 ^ 40 * sizeN (weakFamilies P F blks ys).
Proof.
  rewrite <- tail_num. intros H%N.ltb_lt Hs Hnd Hd. pose proof (heavy_count P F blks ys Hnd Hd) as E. rewrite families_size in *. rewrite <- Hs in H.
  apply (weak_lower _ (tailN F 128)); [apply tail_le| | |done|done]; [|rewrite Hs]; apply N.neq_0_lt_0, N.pow_nonzero; done.
Qed.
Lemma weak_440 P blks ys : sizeN ys <= 2 ^ 22 -> NoDup ys -> (forall y z, y ∈ ys -> z ∈ blks y -> z ∉ ys) -> 2 ^ 40 * sizeN (weakFamilies P 440 blks ys) <= sizeN (lists (bits 440) (length ys)).
Proof.
  intros Hm Hnd Hd. pose proof (heavy_count P 440 blks ys Hnd Hd) as E. rewrite families_size in *.
  apply (weak_upper _ (tailN 440 128)); [apply tail_le| |done|apply (size_check 440 22); [by vm_compute|done]]. apply N.neq_0_lt_0, N.pow_nonzero. done.
Qed.
Lemma nat_nodup k : NoDup (map N.of_nat (seq 0 k)).
Proof. apply NoDup_fmap_2; [apply _|apply NoDup_seq]. Qed.
Lemma nat_size n : sizeN (map N.of_nat (seq 0 (N.to_nat n))) = n.
Proof. unfold sizeN. rewrite map_length, seq_length. apply N2Nat.id. Qed.
