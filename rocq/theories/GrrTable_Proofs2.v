(** Bounds of the expected number of exposed bins, with numbers of 80 bits after the point. *)
From Coq Require Import Reals Lra Psatz.
From Verif Require Import Base Grr18_Model GrrNoise_Model GrrNoise_Spec GrrNoise_Proofs GrrNoise_Proofs2 GrrNoise_Proofs3 GrrNoise_Proofs5 GrrTable_Model GrrTable_Spec GrrTable_Proofs.
Local Open Scope N_scope.

Definition SC : N := 2 ^ 80.
Definition fx (a : N) : R := (sizeR a / sizeR SC)%R.
Lemma sizeR_mul a b : sizeR (a * b) = (sizeR a * sizeR b)%R.
Proof. unfold sizeR. by rewrite N2Z.inj_mul, mult_IZR. Qed.
Lemma sizeR_add a b : sizeR (a + b) = (sizeR a + sizeR b)%R.
Proof. unfold sizeR. by rewrite N2Z.inj_add, plus_IZR. Qed.
Lemma sizeR_le a b : a <= b -> (sizeR a <= sizeR b)%R.
Proof. intros H. unfold sizeR. apply IZR_le. lia. Qed.
Lemma sizeR_lt a b : a < b -> (sizeR a < sizeR b)%R.
Proof. intros H. unfold sizeR. apply IZR_lt. lia. Qed.
Lemma sizeR_0 : sizeR 0 = 0%R.
Proof. done. Qed.
Lemma sizeR_nonneg a : (0 <= sizeR a)%R.
Proof. rewrite <- sizeR_0. apply sizeR_le. lia. Qed.
Lemma SC_pos : (0 < sizeR SC)%R.
Proof. rewrite <- sizeR_0. apply sizeR_lt. vm_compute. reflexivity. Qed.
Lemma sizeR_sub a b : b <= a -> sizeR (a - b) = (sizeR a - sizeR b)%R.
Proof. intros H. unfold sizeR. by rewrite N2Z.inj_sub, minus_IZR by lia. Qed.
Lemma div_lo a d : 0 < d -> (sizeR (a / d) <= sizeR a / sizeR d)%R.
Proof.
  intros Hd. pose proof (sizeR_lt 0 d Hd) as Hp. rewrite sizeR_0 in Hp. apply (Rmult_le_reg_r (sizeR d)); [done|]. unfold Rdiv. rewrite Rmult_assoc, Rinv_l, Rmult_1_r by lra.
  rewrite <- sizeR_mul. apply sizeR_le. rewrite N.mul_comm. apply N.mul_div_le. lia.
Qed.
Lemma div_hi a d : 0 < d -> (sizeR a / sizeR d <= sizeR (a / d + 1))%R.
Proof.
  intros Hd. pose proof (sizeR_lt 0 d Hd) as Hp. rewrite sizeR_0 in Hp. apply (Rmult_le_reg_r (sizeR d)); [done|]. unfold Rdiv. rewrite Rmult_assoc, Rinv_l, Rmult_1_r by lra.
  rewrite <- sizeR_mul. apply sizeR_le. pose proof (N.mul_succ_div_gt a d ltac:(lia)). rewrite <- N.add_1_r in H. lia.
Qed.
Lemma fx_nonneg a : (0 <= fx a)%R.
Proof. unfold fx. apply Rmult_le_pos; [apply sizeR_nonneg|]. apply Rlt_le, Rinv_0_lt_compat, SC_pos. Qed.
Lemma fx_le a b : a <= b -> (fx a <= fx b)%R.
Proof. intros H. unfold fx. apply Rmult_le_compat_r; [apply Rlt_le, Rinv_0_lt_compat, SC_pos|by apply sizeR_le]. Qed.
Lemma fx_add a b : fx (a + b) = (fx a + fx b)%R.
Proof. unfold fx. rewrite sizeR_add. lra. Qed.
Lemma fx_SC : fx SC = 1%R.
Proof. unfold fx. pose proof SC_pos. field. lra. Qed.
Lemma fx_scale_lo a b d : 0 < d -> (fx (a * b / d) <= fx a * (sizeR b / sizeR d))%R.
Proof.
  intros Hd. unfold fx. pose proof (div_lo (a * b) d Hd) as H. rewrite sizeR_mul in H. pose proof SC_pos. pose proof (Rinv_0_lt_compat _ H0).
  replace (sizeR a / sizeR SC * (sizeR b / sizeR d))%R with (sizeR a * sizeR b / sizeR d / sizeR SC)%R by (unfold Rdiv; ring).
  apply Rmult_le_compat_r; lra.
Qed.
Lemma fx_scale_hi a b d : 0 < d -> (fx a * (sizeR b / sizeR d) <= fx (a * b / d + 1))%R.
Proof.
  intros Hd. unfold fx. pose proof (div_hi (a * b) d Hd) as H. rewrite sizeR_mul in H. pose proof SC_pos. pose proof (Rinv_0_lt_compat _ H0).
  replace (sizeR a / sizeR SC * (sizeR b / sizeR d))%R with (sizeR a * sizeR b / sizeR d / sizeR SC)%R by (unfold Rdiv; ring).
  apply Rmult_le_compat_r; lra.
Qed.
Lemma SC_lt : 0 < SC.
Proof. vm_compute. reflexivity. Qed.
Local Opaque SC.

(** Powers. *)
Definition mulLo (a b : N) : N := N.shiftr (a * b) 80.
Definition mulHi (a b : N) : N := N.shiftr (a * b) 80 + 1.
Lemma shift_SC a : N.shiftr a 80 = a / SC.
Proof. apply N.shiftr_div_pow2. Qed.
Lemma mul_lo a b x y : (fx a <= x)%R -> (fx b <= y)%R -> (fx (mulLo a b) <= x * y)%R.
Proof.
  intros Ha Hb. unfold mulLo. rewrite shift_SC. eapply Rle_trans; [apply fx_scale_lo, SC_lt|]. fold (fx b). apply Rmult_le_compat; try done; apply fx_nonneg.
Qed.
Lemma mul_hi a b x y : (0 <= x <= fx a)%R -> (0 <= y <= fx b)%R -> (0 <= x * y <= fx (mulHi a b))%R.
Proof.
  intros Ha Hb. unfold mulHi. rewrite shift_SC. split; [apply Rmult_le_pos; lra|]. eapply Rle_trans; [|apply fx_scale_hi, SC_lt]. fold (fx b). apply Rmult_le_compat; lra.
Qed.
Fixpoint squares (f : N -> N -> N) (j : nat) (a : N) : N := match j with O => a | S j' => squares f j' (f a a) end.
Lemma squares_lo j a x : (fx a <= x)%R -> (fx (squares mulLo j a) <= x ^ (2 ^ j))%R.
Proof.
  revert a x. induction j as [|j IH]; intros a x H; cbn [squares]; [cbn; lra|]. pose proof (IH (mulLo a a) (x * x)%R ltac:(by apply mul_lo)) as H1.
  replace (x ^ 2 ^ S j)%R with ((x * x) ^ 2 ^ j)%R; [done|]. cbn [Nat.pow]. rewrite pow_mult. cbn. f_equal. ring.
Qed.
Lemma squares_hi j a x : (0 <= x <= fx a)%R -> (0 <= x ^ (2 ^ j) <= fx (squares mulHi j a))%R.
Proof.
  revert a x. induction j as [|j IH]; intros a x H; cbn [squares]; [cbn; lra|]. pose proof (IH (mulHi a a) (x * x)%R ltac:(by apply mul_hi)) as H1.
  replace (x ^ 2 ^ S j)%R with ((x * x) ^ 2 ^ j)%R; [done|]. cbn [Nat.pow]. rewrite pow_mult. cbn. f_equal. ring.
Qed.
Fixpoint powers (f : N -> N -> N) (c : N) (j : nat) : N := match j with O => SC | S j' => f c (powers f c j') end.
Lemma powers_lo c x j : (fx c <= x)%R -> (fx (powers mulLo c j) <= x ^ j)%R.
Proof. intros H. induction j as [|j IH]; cbn [powers Rpow_def.pow]; [rewrite fx_SC; lra|]. by apply mul_lo. Qed.
Lemma powers_hi c x j : (0 <= x <= fx c)%R -> (0 <= x ^ j <= fx (powers mulHi c j))%R.
Proof. intros H. induction j as [|j IH]; cbn [powers Rpow_def.pow]; [rewrite fx_SC; lra|]. by apply mul_hi. Qed.
(** The list of powers, so that each is computed once. *)
Fixpoint powList (f : N -> N -> N) (c a : N) (j : nat) : list N := match j with O => [] | S j' => a :: powList f c (f c a) j' end.
Lemma powList_lookup f c i j len : (j < len)%nat -> powList f c (powers f c i) len !! j = Some (powers f c (i + j)).
Proof.
  revert i j. induction len as [|len IH]; intros i j Hj; [lia|]. cbn [powList]. destruct j as [|j]; [cbn; by rewrite Nat.add_0_r|].
  cbn. change (f c (powers f c i)) with (powers f c (S i)). rewrite IH by lia. do 2 f_equal. lia.
Qed.

(** [exp (- p/1000)]. *)
Definition DEN : N := 1000 * 2 ^ 14.
Definition expLo (p : N) : N := squares mulLo 14 (SC * (DEN - p) / DEN).
Definition expHi (p : N) : N := squares mulHi 14 (SC * DEN / (DEN + p) + 1).
Lemma exp_split p : exp (- epsR p) = (exp (- (sizeR p / sizeR DEN)) ^ (2 ^ 14))%R.
Proof.
  rewrite <- Rpower_pow by apply exp_pos. unfold Rpower. rewrite ln_exp. f_equal. unfold epsR, sizeR. rewrite INR_IZR_INZ. change (Z.of_nat (2 ^ 14)) with 16384%Z.
  change (Z.of_N DEN) with 16384000%Z. field.
Qed.
Lemma DEN_pos : 0 < DEN.
Proof. vm_compute. reflexivity. Qed.
Local Opaque DEN.
Lemma exp_lo p : p <= DEN -> (fx (expLo p) <= exp (- epsR p))%R.
Proof.
  intros Hp. rewrite exp_split. apply squares_lo. eapply Rle_trans; [apply fx_scale_lo, DEN_pos|]. rewrite fx_SC, Rmult_1_l, sizeR_sub by done.
  pose proof (sizeR_lt 0 DEN DEN_pos) as HD. rewrite sizeR_0 in HD. pose proof (exp_ineq1_le (- (sizeR p / sizeR DEN))) as H.
  replace ((sizeR DEN - sizeR p) / sizeR DEN)%R with (1 + - (sizeR p / sizeR DEN))%R by (field; lra). done.
Qed.
Lemma exp_hi p : (0 <= exp (- epsR p) <= fx (expHi p))%R.
Proof.
  rewrite exp_split. apply squares_hi. split; [apply Rlt_le, exp_pos|]. eapply Rle_trans; [|apply fx_scale_hi; pose proof DEN_pos; lia]. rewrite fx_SC, Rmult_1_l, sizeR_add.
  pose proof (sizeR_lt 0 DEN DEN_pos) as HD. rewrite sizeR_0 in HD. pose proof (sizeR_nonneg p) as Hp. pose proof (exp_ineq1_le (sizeR p / sizeR DEN)) as H.
  rewrite exp_Ropp. assert (0 <= sizeR p / sizeR DEN)%R as Hq by (apply Rmult_le_pos; [done|apply Rlt_le, Rinv_0_lt_compat; done]).
  replace (sizeR DEN / (sizeR DEN + sizeR p))%R with (/ (1 + sizeR p / sizeR DEN))%R by (field; lra).
  apply Rinv_le_contravar; lra.
Qed.

(** The law of the sizes. *)
Lemma falling_succ n k : falling (n + 1) (S k) = (n + 1) * falling n k.
Proof.
  induction k as [|k IH]; [cbn; lia|]. change (falling (n + 1) (S k) * (n + 1 - N.of_nat (S k)) = (n + 1) * (falling n k * (n - N.of_nat k))). rewrite IH.
  replace (n + 1 - N.of_nat (S k)) with (n - N.of_nat k) by lia. lia.
Qed.
Lemma falling_pos n k : N.of_nat k <= n -> 0 < falling n k.
Proof. induction k as [|k IH]; intros H; cbn [falling]; [lia|]. apply N.mul_pos_pos; [apply IH; lia|lia]. Qed.
Lemma falling_zero n k : n < N.of_nat k -> falling n k = 0.
Proof. induction k as [|k IH]; intros H; [lia|]. cbn [falling]. destruct (decide (n < N.of_nat k)); [rewrite IH by done; lia|]. replace (n - N.of_nat k) with 0 by lia. lia. Qed.
Definition ratio (n m : N) (k : nat) : R := (sizeR (n - N.of_nat k) / sizeR (N.of_nat (S k) * (m - 1)))%R.
Lemma law_step n m k : 2 <= m -> sizeLaw n m (S k) = (sizeLaw n m k * ratio n m k)%R.
Proof.
  intros Hm. destruct (decide (n < N.of_nat (S k))) as [Hk|Hk].
  - unfold sizeLaw at 1. rewrite (falling_zero n (S k)) by done. unfold ratio. replace (n - N.of_nat k) with 0 by lia. unfold Rdiv. rewrite sizeR_0, !Rmult_0_l, Rmult_0_r. done.
  - unfold sizeLaw, ratio. replace (N.of_nat (S k)) with (N.of_nat k + 1) at 1 by lia. rewrite falling_succ. cbn [falling]. rewrite !sizeR_mul. replace (N.of_nat k + 1) with (N.of_nat (S k)) by lia.
    replace (N.to_nat n - k)%nat with (S (N.to_nat n - S k)) by lia. cbn [Rpow_def.pow].
    pose proof (sizeR_lt 0 (falling (N.of_nat k) k) (falling_pos (N.of_nat k) k (N.le_refl _))) as H1. pose proof (sizeR_lt 0 (N.of_nat (S k)) ltac:(lia)) as H2. pose proof (sizeR_lt 0 (m - 1) ltac:(lia)) as H3.
    pose proof (sizeR_lt 0 m ltac:(lia)) as H4. rewrite sizeR_0 in H1, H2, H3, H4. field. repeat split; try lra. apply pow_nonzero. lra.
Qed.
Lemma law_zero n m : 2 <= m -> sizeLaw n m 0 = ((sizeR (m - 1) / sizeR m) ^ N.to_nat n)%R.
Proof.
  intros Hm. unfold sizeLaw. cbn [falling]. rewrite Nat.sub_0_r. unfold Rdiv. rewrite Rpow_mult_distr, pow_inv. change (sizeR 1) with 1%R. field. apply pow_nonzero.
  pose proof (sizeR_lt 0 m ltac:(lia)) as H4. rewrite sizeR_0 in H4. lra.
Qed.
Lemma ratio_nonneg n m k : (0 <= ratio n m k)%R.
Proof.
  unfold ratio. destruct (decide (N.of_nat (S k) * (m - 1) = 0)) as [->|H]; [unfold Rdiv; rewrite sizeR_0, Rinv_0; lra|].
  apply Rmult_le_pos; [apply sizeR_nonneg|]. apply Rlt_le, Rinv_0_lt_compat. rewrite <- sizeR_0. apply sizeR_lt. by apply N.neq_0_lt_0.
Qed.
Fixpoint nested (Q : nat -> R) (n m : N) (k f : nat) : R := match f with O => 0%R | S f' => (Q k + ratio n m k * nested Q n m (S k) f')%R end.
Lemma law_nested Q n m k f : 2 <= m -> rsum (seq k f) (fun j => (sizeLaw n m j * Q j)%R) = (sizeLaw n m k * nested Q n m k f)%R.
Proof.
  intros Hm. revert k. induction f as [|f IH]; intros k; cbn [seq nested]; [cbn; lra|]. rewrite rsum_cons, IH, law_step by done. lra.
Qed.
Lemma nested_nonneg Q n m k f : (forall j, 0 <= Q j)%R -> (0 <= nested Q n m k f)%R.
Proof. intros HQ. revert k. induction f as [|f IH]; intros k; cbn [nested]; [lra|]. pose proof (HQ k). pose proof (Rmult_le_pos _ _ (ratio_nonneg n m k) (IH (S k))). lra. Qed.
Lemma nested_two Q n m k f : (forall j, 0 <= Q j <= 1)%R -> 2 <= m -> 2 * (n - N.of_nat k) <= N.of_nat (S k) * (m - 1) -> (nested Q n m k f <= 2)%R.
Proof.
  intros HQ Hm. revert k. induction f as [|f IH]; intros k Hk; cbn [nested]; [lra|]. specialize (IH (S k)). pose proof (HQ k).
  assert (2 * (n - N.of_nat (S k)) <= N.of_nat (S (S k)) * (m - 1)) as HH by nia. specialize (IH HH).
  pose proof (nested_nonneg Q n m (S k) f (fun j => proj1 (HQ j))) as HN. assert (ratio n m k <= / 2)%R as HR.
  { unfold ratio. assert (0 < N.of_nat (S k) * (m - 1)) as HP by nia. pose proof (sizeR_lt _ _ HP) as HP'. rewrite sizeR_0 in HP'. apply (Rmult_le_reg_r (2 * sizeR (N.of_nat (S k) * (m - 1)))); [lra|].
    apply sizeR_le in Hk. rewrite sizeR_mul in Hk. change (sizeR 2) with 2%R in Hk. unfold Rdiv. field_simplify; lra. }
  pose proof (ratio_nonneg n m k). assert (ratio n m k * nested Q n m (S k) f <= / 2 * 2)%R by (apply Rmult_le_compat; lra). lra.
Qed.
Fixpoint nestHi (q : nat -> N) (n m : N) (k f : nat) : N :=
  match f with O => 2 * SC | S f' => q k + (nestHi q n m (S k) f' * (n - N.of_nat k) / (N.of_nat (S k) * (m - 1)) + 1) end.
Fixpoint nestLo (q : nat -> N) (n m : N) (k f : nat) : N :=
  match f with O => 0 | S f' => q k + nestLo q n m (S k) f' * (n - N.of_nat k) / (N.of_nat (S k) * (m - 1)) end.
Lemma nest_hi Q q n m k f g : (forall j, 0 <= Q j <= 1)%R -> (forall j, (j < k + f)%nat -> Q j <= fx (q j))%R -> 2 <= m -> 2 * (n - N.of_nat (k + f)) <= N.of_nat (S (k + f)) * (m - 1) ->
  (nested Q n m k (f + g) <= fx (nestHi q n m k f))%R.
Proof.
  intros HQ Hq Hm. revert k Hq. induction f as [|f IH]; intros k Hq Hk; cbn [Nat.add nested nestHi].
  - rewrite Nat.add_0_r in Hk. eapply Rle_trans; [by apply nested_two|]. replace (2 * SC) with (SC + SC) by lia. rewrite fx_add, fx_SC. lra.
  - rewrite fx_add. pose proof (Hq k ltac:(lia)). assert (forall j, (j < S k + f)%nat -> (Q j <= fx (q j))%R) as Hq' by (intros j Hj; apply Hq; lia).
    replace (k + S f)%nat with (S k + f)%nat in Hk by lia. specialize (IH (S k) Hq' Hk).
    pose proof (fx_scale_hi (nestHi q n m (S k) f) (n - N.of_nat k) (N.of_nat (S k) * (m - 1)) ltac:(nia)) as H1. fold (ratio n m k) in H1.
    pose proof (Rmult_le_compat_r _ _ _ (ratio_nonneg n m k) IH). lra.
Qed.
Lemma nest_lo Q q n m k f g : (forall j, 0 <= Q j)%R -> (forall j, (j < k + f)%nat -> fx (q j) <= Q j)%R -> 2 <= m -> (fx (nestLo q n m k f) <= nested Q n m k (f + g))%R.
Proof.
  intros HQ Hq Hm. revert k Hq. induction f as [|f IH]; intros k Hq; cbn [Nat.add nested nestLo].
  - unfold fx. rewrite sizeR_0. unfold Rdiv. rewrite Rmult_0_l. by apply nested_nonneg.
  - rewrite fx_add. pose proof (Hq k ltac:(lia)). assert (forall j, (j < S k + f)%nat -> (fx (q j) <= Q j)%R) as Hq' by (intros j Hj; apply Hq; lia). specialize (IH (S k) Hq').
    pose proof (fx_scale_lo (nestLo q n m (S k) f) (n - N.of_nat k) (N.of_nat (S k) * (m - 1)) ltac:(nia)) as H1. fold (ratio n m k) in H1.
    pose proof (Rmult_le_compat_r _ _ _ (ratio_nonneg n m k) IH). lra.
Qed.
