(** The bounds for the tables for 256 items. *)
From Coq Require Import Reals Lra Psatz.
From Verif Require Import Base Grr18_Model GrrNoise_Model GrrNoise_Spec GrrNoise_Proofs GrrTable_Model GrrTable_Spec GrrTable_Proofs GrrTable_Proofs2 GrrTable_Proofs3.
Local Open Scope N_scope.

Definition expo (p : N) : N := if p =? 4000 then 24 else if p =? 2000 then 29 else if p =? 1000 then 31 else if p =? 500 then 33 else 34.
Lemma expo_if eps : N.to_nat (expo eps) = if decide (eps = 4000) then 24%nat else if decide (eps = 2000) then 29%nat else if decide (eps = 1000) then 31%nat else if decide (eps = 500) then 33%nat else 34%nat.
Proof.
  unfold expo. destruct (N.eqb_spec eps 4000); [by rewrite decide_True|]. rewrite decide_False by done. destruct (N.eqb_spec eps 2000); [by rewrite decide_True|]. rewrite decide_False by done.
  destruct (N.eqb_spec eps 1000); [by rewrite decide_True|]. rewrite decide_False by done. destruct (N.eqb_spec eps 500); [by rewrite decide_True|]. by rewrite decide_False.
Qed.
Definition chk (t : N * N * N * Z * list N) : bool :=
  let '(n, m, p, st, l) := t in
  let j := N.to_nat (N.log2 n) in
  (n =? 2 ^ N.of_nat j) && (64 <=? n) && (2 <=? m) && (2 * (n - 64) <=? 65 * (m - 1)) && (1 <=? p) && (p <=? 4000) &&
  (2 ^ 40 <? loBound j m p st l) && (hiBound j m p st l <=? 2 ^ (80 - expo p)).
Lemma chk_all : forallb chk tables = true.
Proof. vm_compute. reflexivity. Qed.
Lemma fx_pow e : e <= 80 -> fx (2 ^ (80 - e)) = (/ 2 ^ N.to_nat e)%R.
Proof.
  intros He. unfold fx, sizeR. unfold SC. rewrite !N2Z.inj_pow. change (Z.of_N 2) with 2%Z. rewrite <- (Z2Nat.id (Z.of_N (80 - e))), <- (Z2Nat.id (Z.of_N 80)), <- !pow_IZR by lia.
  replace (Z.to_nat (Z.of_N 80)) with (Z.to_nat (Z.of_N (80 - e)) + N.to_nat e)%nat by lia. rewrite pow_add.
  assert (2 ^ Z.to_nat (Z.of_N (80 - e)) <> 0)%R by (apply pow_nonzero; lra). assert (2 ^ N.to_nat e <> 0)%R by (apply pow_nonzero; lra). field. done.
Qed.
Lemma chk_table n m p st l : tableOf n m p = Some (st, l) ->
  let j := N.to_nat (N.log2 n) in
  n = 2 ^ N.of_nat j /\ 64 <= n /\ 2 <= m /\ 2 * (n - 64) <= 65 * (m - 1) /\ 1 <= p <= 4000 /\ 2 ^ 40 < loBound j m p st l /\ hiBound j m p st l <= 2 ^ (80 - expo p).
Proof.
  intros H j. apply tableOf_in in H. pose proof chk_all as G. rewrite forallb_forall in G. specialize (G _ (proj1 (elem_of_list_In _ _) H)). unfold chk in G. fold j in G.
  apply andb_true_iff in G as [G H8%N.leb_le]. apply andb_true_iff in G as [G H7%N.ltb_lt]. apply andb_true_iff in G as [G H6%N.leb_le]. apply andb_true_iff in G as [G H5%N.leb_le].
  apply andb_true_iff in G as [G H4%N.leb_le]. apply andb_true_iff in G as [G H3%N.leb_le]. apply andb_true_iff in G as [H1%N.eqb_eq H2%N.leb_le].
  repeat match goal with |- _ /\ _ => split end; assumption.
Qed.
Theorem exposed_many n m p mx cap : hasTable n m p = true -> (/ 2 ^ 40 < exposedBins n m p (tableCfg n m p mx cap))%R.
Proof.
  intros HT. apply tableOf_has in HT as [[st l] HT]. unfold tableCfg. rewrite HT. destruct (chk_table _ _ _ _ _ HT) as (E & H1 & H2 & H3 & H4 & H5 & H6). destruct (tableOf_good _ _ _ _ _ HT) as (-> & HL & HS & HF).
  revert E H1 H5. generalize (N.to_nat (N.log2 n)). intros j -> H1 H5.
  eapply Rlt_le_trans; [|apply exposed_lo; [exact H1|exact H2|exact H4|intros ->; done|lia|lia]]. change 40%nat with (N.to_nat 40). rewrite <- (fx_pow 40) by lia. unfold fx. apply Rmult_lt_compat_r; [apply Rinv_0_lt_compat, SC_pos|].
  apply sizeR_lt. exact H5.
Qed.
(** The entries are bin sizes that overflow with a probability of more than [2^-40], less one. *)
Definition ovLo (j : nat) (m B : N) : N := m * mulLo (squares mulLo j (SC * (m - 1) / m)) (nestLo (fun k => if B <? N.of_nat k then SC else 0) (2 ^ N.of_nat j) m 0 64).
Lemma overflow_lo j m B : 64 <= 2 ^ N.of_nat j -> 2 <= m -> (fx (ovLo j m B) <= overflowBins (2 ^ N.of_nat j) m B)%R.
Proof.
  intros Hj Hm. unfold overflowBins, ovLo. rewrite law_nested by done. set (Q := fun k : nat => if decide (B < N.of_nat k) then 1%R else 0%R).
  assert (forall i, 0 <= Q i)%R as HQ by (intros i; unfold Q; case_decide; lra).
  replace (S (N.to_nat (2 ^ N.of_nat j))) with (64 + (N.to_nat (2 ^ N.of_nat j) - 63))%nat by lia. rewrite law_zero by done. rewrite items_nat.
  assert (forall a b : N, fx (a * b) = sizeR a * fx b)%R as -> by (intros a b; unfold fx; rewrite sizeR_mul; unfold Rdiv; ring).
  apply Rmult_le_compat_l; [apply sizeR_nonneg|]. apply mul_lo.
  - apply squares_lo. pose proof (fx_scale_lo SC (m - 1) m ltac:(lia)) as H. by rewrite fx_SC, Rmult_1_l in H.
  - apply nest_lo; [exact HQ| |exact Hm]. intros i _. unfold Q. destruct (N.ltb_spec B (N.of_nat i)); case_decide; try lia; [rewrite fx_SC; lra|]. unfold fx. rewrite sizeR_0. unfold Rdiv. lra.
Qed.
Lemma overflow_mono n m B B' : 1 <= m -> B <= B' -> (overflowBins n m B' <= overflowBins n m B)%R.
Proof.
  intros Hm HB. unfold overflowBins. apply Rmult_le_compat_l; [apply sizeR_nonneg|]. apply rsum_le. intros k _. apply Rmult_le_compat_l.
  - unfold sizeLaw, Rdiv. assert (forall a, 0 <= / sizeR a)%R as HI.
    { intros a. destruct (decide (a = 0)) as [->|Ha]; [rewrite sizeR_0, Rinv_0; lra|]. apply Rlt_le, Rinv_0_lt_compat. rewrite <- sizeR_0. apply sizeR_lt. lia. }
    apply Rmult_le_pos; apply Rmult_le_pos; [apply sizeR_nonneg|apply HI|apply pow_le, sizeR_nonneg|]. rewrite <- pow_inv. apply pow_le, HI.
  - repeat case_decide; lra || lia.
Qed.
Definition chk2 (t : N * N * N * Z * list N) : bool := let '(n, m, p, st, l) := t in 2 ^ 40 <? ovLo (N.to_nat (N.log2 n)) m (fold_right N.max 0 l - 1).
Lemma chk2_all : forallb chk2 tables = true.
Proof. vm_compute. reflexivity. Qed.
Lemma fold_max_le l B : fold_right N.max 0 l <= B -> Forall (fun x => x <= B) l.
Proof. induction l as [|x l IH]; cbn; intros H; [by apply Forall_nil_2|]. apply Forall_cons_2; [lia|]. apply IH. lia. Qed.
Lemma not_cut n m p mx st l : tableOf n m p = Some (st, l) -> (overflowBins n m mx <= / 2 ^ 40)%R -> Forall (fun x => x <= mx) l.
Proof.
  intros HT HO. destruct (chk_table _ _ _ _ _ HT) as (E & H1 & H2 & _). pose proof (tableOf_in _ _ _ _ _ HT) as HI.
  pose proof chk2_all as G. rewrite forallb_forall in G. specialize (G _ (proj1 (elem_of_list_In _ _) HI)). unfold chk2 in G. apply N.ltb_lt in G.
  apply fold_max_le. destruct (decide (fold_right N.max 0 l <= mx)) as [|Hn]; [done|]. exfalso.
  revert E H1 G. generalize (N.to_nat (N.log2 n)). intros j -> H1 G.
  pose proof (overflow_lo j m (fold_right N.max 0 l - 1) H1 H2) as HL. pose proof (overflow_mono (2 ^ N.of_nat j) m mx (fold_right N.max 0 l - 1) ltac:(lia) ltac:(lia)) as HM.
  change 40%nat with (N.to_nat 40) in HO. rewrite <- (fx_pow 40) in HO by lia. assert (fx (2 ^ (80 - 40)) < fx (ovLo j m (fold_right N.max 0%N l - 1)))%R; [|lra].
  unfold fx. apply Rmult_lt_compat_r; [apply Rinv_0_lt_compat, SC_pos|]. apply sizeR_lt. exact G.
Qed.
Theorem exposed_few n m p mx cap st l : tableOf n m p = Some (st, l) -> Forall (fun x => x <= mx) l -> (exposedBins n m p (tableCfg n m p mx cap) <= / 2 ^ N.to_nat (expo p))%R.
Proof.
  intros HT HM. unfold tableCfg. rewrite HT. destruct (chk_table _ _ _ _ _ HT) as (E & H1 & H2 & H3 & H4 & H5 & H6). destruct (tableOf_good _ _ _ _ _ HT) as (-> & HL & HS & HF).
  revert E H1 H3 H6. generalize (N.to_nat (N.log2 n)). intros j -> H1 H3 H6.
  eapply Rle_trans; [apply exposed_hi; [exact H1|exact H2|exact H3|lia|intros ->; done|exact HS|]|].
  - apply Forall_and. split; [exact HM|]. eapply Forall_impl; [exact HF|]. cbn. lia.
  - rewrite <- fx_pow; [apply fx_le, H6|]. unfold expo. repeat case_match; lia.
Qed.
(** Without noise to bound, [computeBuffSize] returns after its first round. *)
Lemma buff_zero eps : computeBuffSize 40 eps 0 = Done 2.
Proof. unfold computeBuffSize. change (40 =? 0) with false. cbv iota. destruct (Req_EM_T 0 0) as [_|H]; [done|by destruct H]. Qed.
