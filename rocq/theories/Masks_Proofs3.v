From Coq Require Import Reals Lra.
From Verif Require Import Base BinProb_Spec BinProb_Proofs Masks_Model Masks_Spec Masks_Proofs Masks_Proofs2.
Local Open Scope R_scope.

Lemma exp_mult x n : exp (INR n * x) = exp x ^ n.
Proof.
  induction n as [|n IH]; [cbn [INR Rpow_def.pow]; rewrite Rmult_0_l; apply exp_0|].
  rewrite S_INR, Rmult_plus_distr_r, Rmult_1_l, exp_plus, IH. cbn [Rpow_def.pow]. ring.
Qed.
Lemma Int_part_unique r z : IZR z <= r < IZR z + 1 -> Int_part r = z.
Proof.
  intros [H1 H2]. unfold Int_part. rewrite <- (tech_up r (z + 1)); [lia| |]; rewrite plus_IZR; lra.
Qed.
Lemma ln2_lower : 33 / 48 <= ln 2.
Proof.
  rewrite <- (ln_exp (33 / 48)). assert (exp (33 / 48) <= 2) as [H|H].
  - replace (33 / 48) with (- (INR 64 * (- 11 / 1024))) by (cbn [INR]; lra).
    rewrite exp_Ropp, exp_mult. assert (1013 / 1024 <= exp (- 11 / 1024)) as H by (pose proof (exp_ineq1_le (- 11 / 1024)); lra).
    assert ((1013 / 1024) ^ 64 <= exp (- 11 / 1024) ^ 64) as H2 by (apply pow_incr; lra).
    assert (/ 2 <= (1013 / 1024) ^ 64) as H3.
    { unfold Rdiv. rewrite Rpow_mult_distr, pow_inv. rewrite !pow_IZR. apply (Rmult_le_reg_r (IZR (1024 ^ Z.of_nat 64))); [apply IZR_lt; vm_compute; done|].
      rewrite Rmult_assoc, Rinv_l, Rmult_1_r; [|apply not_0_IZR; vm_compute; done]. apply (Rmult_le_reg_l 2); [lra|]. rewrite <- Rmult_assoc, Rinv_r, Rmult_1_l by lra. rewrite <- mult_IZR. apply IZR_le. vm_compute. done. }
    rewrite <- (Rinv_inv 2). apply Rinv_le_contravar; lra.
  - left. apply ln_increasing; [apply exp_pos|done].
  - rewrite H. lra.
Qed.
Lemma ln2_upper : ln 2 < 34 / 48.
Proof.
  rewrite <- (ln_exp (34 / 48)). apply ln_increasing; [lra|].
  replace (34 / 48) with (INR 64 * (17 / 1536)) by (cbn [INR]; lra).
  rewrite exp_mult. assert (1553 / 1536 <= exp (17 / 1536)) as H by (pose proof (exp_ineq1_le (17 / 1536)); lra).
  assert ((1553 / 1536) ^ 64 <= exp (17 / 1536) ^ 64) as H2 by (apply pow_incr; lra).
  assert (2 < (1553 / 1536) ^ 64) as H3; [|lra].
  unfold Rdiv. rewrite Rpow_mult_distr, pow_inv. rewrite !pow_IZR. apply (Rmult_lt_reg_r (IZR (1536 ^ Z.of_nat 64))); [apply IZR_lt; vm_compute; done|].
  rewrite Rmult_assoc, Rinv_l, Rmult_1_r; [|apply not_0_IZR; vm_compute; done]. rewrite <- mult_IZR. apply IZR_lt. vm_compute. done.
Qed.
Lemma bits_witness : rr17MaskBits 40 (2 ^ 24)%N = 72%Z.
Proof.
  unfold rr17MaskBits. apply Int_part_unique.
  assert (IZR (Z.of_N (2 ^ 24)) = 2 ^ 24) as -> by (rewrite pow_IZR; f_equal).
  rewrite ln_pow by lra. replace (INR 24) with 24 by (cbn [INR]; lra). change (IZR (Z.of_N 40)) with 40.
  pose proof ln2_lower. pose proof ln2_upper. lra.
Qed.
Lemma bytes_witness : rr17MaskBytes 40 (2 ^ 20) 16 = Done 9%N.
Proof.
  unfold rr17MaskBytes. replace ((2 ^ 20 * 16) mod two64)%N with (2 ^ 24)%N by reflexivity. rewrite bits_witness. reflexivity.
Qed.
Lemma rr17_enough ssp n B b : (n * B < two64)%N -> rr17MaskBytes ssp n B = Done b -> (n * B * 2 ^ ssp <= 4 * 2 ^ (8 * b))%N.
Proof.
  intros Hs. unfold rr17MaskBytes. rewrite N.mod_small by done. set (x := (n * B)%N). destruct (N.eqb_spec x 0) as [|Hx]; [done|].
  destruct (Z.ltb_spec (rr17MaskBits ssp x) 0) as [|Hz]; [done|]. intros E. injection E as <-.
  set (z := rr17MaskBits ssp x) in *. assert (IZR (Z.of_N ssp) + 2 * ln (IZR (Z.of_N x)) - 1 < IZR z + 1) as H.
  { unfold z, rr17MaskBits. match goal with |- ?r < _ => pose proof (proj2 (base_Int_part r)) end. lra. }
  clearbody z. assert (1 <= IZR (Z.of_N x)) as Hx1 by (apply IZR_le; lia).
  assert (0 <= ln (IZR (Z.of_N x))) as Hln. { rewrite <- ln_1. destruct Hx1 as [Hx1|Hx1]; [left; apply ln_increasing; lra|rewrite Hx1; lra]. }
  set (d := (z + 2 - Z.of_N ssp)%Z). assert (2 * ln (IZR (Z.of_N x)) < IZR d) as Hd by (unfold d; rewrite minus_IZR, plus_IZR; lra).
  assert (0 < d)%Z as Hd0 by (apply lt_IZR; lra).
  assert (Z.of_N x < 2 ^ d)%Z as Hp.
  { assert (IZR (Z.of_N x) * IZR (Z.of_N x) < exp (IZR d)) as H1.
    { rewrite <- (exp_ln (IZR (Z.of_N x))) at 1 2 by lra. rewrite <- exp_plus. apply exp_increasing. lra. }
    assert (exp (IZR d) <= IZR (4 ^ d)) as H2.
    { replace d with (Z.of_nat (Z.to_nat d)) by lia. rewrite <- pow_IZR, <- INR_IZR_INZ. rewrite <- (Rmult_1_r (INR _)), exp_mult.
      apply pow_incr. pose proof exp_le_3. pose proof (exp_pos 1). lra. }
    assert (IZR (Z.of_N x * Z.of_N x) < IZR (4 ^ d)) as H3 by (rewrite mult_IZR; lra). apply lt_IZR in H3.
    replace 4%Z with (2 * 2)%Z in H3 by lia. rewrite Z.pow_mul_l in H3. nia. }
  assert (x < 2 ^ Z.to_N d)%N as Hp'. { apply N2Z.inj_lt. rewrite N2Z.inj_pow, Z2N.id by lia. done. }
  transitivity (2 ^ (Z.to_N d + ssp))%N.
  - rewrite N.pow_add_r. apply N.mul_le_mono_r. lia.
  - replace (4 * 2 ^ (8 * ((Z.to_N z + 7) / 8 * 8 / 8)))%N with (2 ^ (2 + 8 * ((Z.to_N z + 7) / 8 * 8 / 8)))%N by (rewrite N.pow_add_r; done).
    apply N.pow_le_mono_r; [done|]. rewrite N.div_mul by done. unfold d. lia.
Qed.
