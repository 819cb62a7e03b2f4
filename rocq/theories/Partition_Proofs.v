(** Proofs about work splitting. *)
From Verif Require Import Base Tools_Spec Partition_Model.

Lemma tile (f : nat -> nat) T : f 0%nat = 0%nat -> (forall t, (f t <= f (S t))%nat) ->
  concat (map (fun t => seq (f t) (f (S t) - f t)) (seq 0 T)) = seq 0 (f T).
Proof.
  intros F0 M. induction T as [|T IH]; [by rewrite F0|].
  rewrite seq_S, map_app, concat_app, IH. cbn [map concat]. rewrite app_nil_r.
  assert (0 <= f T)%nat by lia. pose proof (M T).
  transitivity (seq 0 (f T + (f (S T) - f T))); [by rewrite seq_app|f_equal; lia].
Qed.

Definition ranges (split : N -> N * N) (T : N) : list nat :=
  concat (map (fun t => positions (split (N.of_nat t))) (seq 0 (N.to_nat T))).

Lemma ranges_tile (split : N -> N * N) (f : N -> N) T n :
  (forall t, t < T -> positions (split t) = positions (f t, f (t + 1))) ->
  f 0 = 0 -> f T = n -> (forall t, f t <= f (t + 1)) ->
  ranges split T = seq 0 (N.to_nat n).
Proof.
  intros E F0 FT M. unfold ranges.
  pose proof (tile (fun t => N.to_nat (f (N.of_nat t))) (N.to_nat T)) as X.
  cbv beta in X. rewrite N2Nat.id, FT in X. rewrite <- X.
  - f_equal. apply map_ext_in. intros t Ht. apply in_seq in Ht. rewrite E by lia.
    unfold positions. cbn [fst snd]. by replace (N.of_nat (S t)) with (N.of_nat t + 1) by lia.
  - change (N.of_nat 0) with 0. by rewrite F0.
  - intros t. specialize (M (N.of_nat t)). replace (N.of_nat (S t)) with (N.of_nat t + 1) by lia. lia.
Qed.

Lemma even_cover n T : 0 < T -> n * T < 2 ^ 64 -> ranges (evenSplit n T) T = seq 0 (N.to_nat n).
Proof.
  intros HT Hw. apply (ranges_tile _ (fun t => n * t / T)).
  - intros t Ht. unfold evenSplit, two64. rewrite !N.mod_small by nia. done.
  - by rewrite N.mul_0_r, N.div_0_l by lia.
  - apply N.div_mul. lia.
  - intros t. apply N.div_le_mono; nia.
Qed.

Lemma ceil_cover n T : 0 < T -> n + T < 2 ^ 64 -> T * ((n + T - 1) / T) < 2 ^ 64 ->
  ranges (ceilSplit n T) T = seq 0 (N.to_nat n).
Proof.
  intros HT H1 H2. set (c := (n + T - 1) / T).
  apply (ranges_tile _ (fun t => N.min (t * c) n)).
  - intros t Ht. unfold ceilSplit, two64. rewrite (N.mod_small (n + T - 1)) by lia. fold c.
    cbv zeta. fold c in H2. rewrite !N.mod_small by nia. unfold positions. cbn [fst snd].
    destruct (N.le_gt_cases (t * c) n) as [L|L].
    + by rewrite (N.min_l (t * c)).
    + rewrite (N.min_r (t * c)) by lia. rewrite (N.min_r ((t + 1) * c)) by nia.
      replace (N.to_nat n - N.to_nat (t * c))%nat with 0%nat by lia. by rewrite Nat.sub_diag.
  - rewrite N.mul_0_l. lia.
  - apply N.min_r. unfold c. pose proof (N.mul_succ_div_gt (n + T - 1) T ltac:(lia)). nia.
  - intros t. nia.
Qed.

Lemma roundUp_mono a b : a <= b -> roundUpTo a 128 <= roundUpTo b 128.
Proof. intros H. unfold roundUpTo. apply N.mul_le_mono_r, N.div_le_mono; lia. Qed.
Lemma roundUp_ge a : a <= roundUpTo a 128.
Proof. unfold roundUpTo. pose proof (N.mul_succ_div_gt (a + 128 - 1) 128 ltac:(lia)). lia. Qed.

Lemma ot_cover m T : 0 < T -> m * T < 2 ^ 64 -> ranges (otSplit m T) T = seq 0 (N.to_nat m).
Proof.
  intros HT Hw. apply (ranges_tile _ (fun t => N.min (roundUpTo (t * m / T) 128) m)).
  - intros t Ht. unfold otSplit, two64. rewrite !N.mod_small by nia. done.
  - rewrite N.mul_0_l, N.div_0_l by lia. apply N.min_0_l.
  - rewrite N.mul_comm, N.div_mul by lia. pose proof (roundUp_ge m). lia.
  - intros t. apply N.min_le_compat_r, roundUp_mono, N.div_le_mono; nia.
Qed.

Lemma rr17b_split_equal B T t : 0 < T -> t < T -> B + T < 2 ^ 64 -> B * T < 2 ^ 64 -> (T | B) ->
  rr17bSenderBins B T t = rr17bReceiverBins B T t.
Proof.
  intros HT Ht H1 H2 [q ->]. unfold rr17bSenderBins, rr17bReceiverBins, ceilSplit, evenSplit, two64.
  rewrite (N.mod_small (q * T + T - 1)) by lia.
  assert ((q * T + T - 1) / T = q) as ->.
  { replace (q * T + T - 1) with (T - 1 + q * T) by lia. rewrite N.div_add by lia.
    rewrite N.div_small by lia. lia. }
  cbv zeta. rewrite !N.mod_small by nia.
  replace (q * T * t) with (t * q * T) by lia. replace (q * T * (t + 1)) with ((t + 1) * q * T) by lia.
  rewrite !N.div_mul by lia. f_equal. apply N.min_l. nia.
Qed.
