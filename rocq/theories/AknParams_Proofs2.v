(** Proofs about the parameters of RR16: the formulas, the search and the table. *)
From Coq Require Import Reals Lra Psatz.
From Verif Require Import Base Rr16_Model AknParams_Model AknParams_Spec AknParams_Proofs.
Local Open Scope R_scope.

Lemma toR_0 n : 0 <= toR n.
Proof. unfold toR. apply IZR_le. lia. Qed.
Lemma toR_le a b : (a <= b)%N <-> toR a <= toR b.
Proof. unfold toR. split; intros H; [apply IZR_le; lia|apply le_IZR in H; lia]. Qed.
Lemma toR_lt a b : (a < b)%N <-> toR a < toR b.
Proof. unfold toR. split; intros H; [apply IZR_lt; lia|apply lt_IZR in H; lia]. Qed.
Lemma toR_add a b : toR (a + b) = toR a + toR b.
Proof. unfold toR. by rewrite N2Z.inj_add, plus_IZR. Qed.
Lemma toR_mul a b : toR (a * b) = toR a * toR b.
Proof. unfold toR. by rewrite N2Z.inj_mul, mult_IZR. Qed.
Lemma toR_pow a b : toR (a ^ b) = toR a ^ N.to_nat b.
Proof. unfold toR. rewrite N2Z.inj_pow, <- (N_nat_Z b). by rewrite pow_IZR. Qed.
Lemma toR_nat m : toR (N.of_nat m) = INR m.
Proof. unfold toR. by rewrite INR_IZR_INZ, nat_N_Z. Qed.
Lemma toR_1 : toR 1 = 1. Proof. done. Qed.
Lemma toU_bounds x : 0 <= x -> toR (toU x) <= x < toR (toU x) + 1.
Proof.
  intros Hx. unfold toR, toU. destruct (base_Int_part x) as [H1 H2]. assert (-1 < Int_part x)%Z. { apply lt_IZR. replace (IZR (-1)) with (-1) by done. lra. } rewrite Z2N.id by lia. lra.
Qed.
Lemma toU_eq x v : toR v <= x < toR v + 1 -> toU x = v.
Proof.
  intros H. pose proof (toR_0 v). destruct (toU_bounds x ltac:(lra)) as [H1 H2]. rewrite <- toR_1, <- !toR_add in *.
  assert (v < toU x + 1)%N by (apply toR_lt; lra). assert (toU x < v + 1)%N by (apply toR_lt; lra). lia.
Qed.

(** ** The honest receiver *)

Lemma tau_many m p k : 0 < p < 1 -> (0 < k)%N -> coins p (N.to_nat m) (tooMany (computeTau m p k)) <= exp (- toR k).
Proof.
  intros Hp Hk. assert (0 < toR k) as Hk' by (by apply (toR_lt 0)). pose proof (toR_0 m) as Hm0.
  assert (INR (N.to_nat m) = toR m) as Em by (rewrite <- toR_nat; f_equal; lia).
  set (D := toR k * toR k + 8 * toR k * p * toR m). assert (0 <= toR k * p * toR m) as Hkpm by (repeat apply Rmult_le_pos; lra).
  assert (0 <= D) as HD by (unfold D; assert (0 <= toR k * toR k) by (apply Rmult_le_pos; lra); lra). set (s := R_sqrt.sqrt D). assert (s * s = D) as Hs by (by apply sqrt_sqrt). assert (0 <= s) as Hs0 by apply sqrt_pos.
  assert (0 <= p * toR m) by (apply Rmult_le_pos; lra). assert (0 <= p * toR m + (toR k + s) / 2) as Hx by lra. destruct (toU_bounds _ Hx) as [_ Hb]. change (toU (p * toR m + (toR k + s) / 2)) with (computeTau m p k) in Hb.
  destruct (N.eq_dec m 0) as [->|Dm].
  { change (N.to_nat 0) with O. unfold coins, tooMany. destruct (N.ltb_spec (computeTau 0 p k) (N.of_nat 0)); [lia|]. left. apply exp_pos. }
  assert (0 < toR m) as Hm by (apply (toR_lt 0); lia).
  apply (many_heads p (N.to_nat m) _ ((toR k + s) / 2) (toR k)); rewrite ?Em; [lra|nra|lra| |].
  - replace ((toR k + s) / 2 * ((toR k + s) / 2)) with ((toR k * toR k + 2 * toR k * s + s * s) / 4) by field. rewrite Hs. unfold D. field.
  - intros i Hi. unfold tooMany in Hi. apply N.ltb_lt in Hi. assert (computeTau m p k + 1 <= N.of_nat i)%N as Hi' by lia. apply toR_le in Hi'. rewrite toR_add, toR_nat, toR_1 in Hi'. lra.
Qed.

Lemma mh_enough M p k : 0 < p < 1 -> (0 < k)%N -> (0 < M)%N -> (M + computeTau (computeMh M p k) p k <= computeMh M p k)%N.
Proof.
  intros Hp Hk HM. assert (1 <= toR k) as Hk' by (rewrite <- toR_1; apply toR_le; lia). assert (1 <= toR M) as HM' by (rewrite <- toR_1; apply toR_le; lia).
  set (mh := computeMh M p k). set (y := toR mh). set (K := toR k) in *. set (m := toR M) in *. set (q := 1 - p). assert (0 < q) by (unfold q; lra).
  set (D1 := K + p * p + 2 * K * p + K - 8 * m * p * p + 8 * m * p). set (D2 := K * (K * (1 + p) * (1 + p) + 8 * q * p * (m - 1))).
  assert (0 <= D2) as HD2. { unfold D2. apply Rmult_le_pos; [lra|]. assert (0 <= K * (1 + p) * (1 + p)) by nra. assert (0 <= 8 * q * p * (m - 1)); [|lra]. apply Rmult_le_pos; [|lra]. nra. }
  assert (D2 <= K * D1) as HD. { unfold D2, D1. apply Rmult_le_compat_l; [lra|]. unfold q. assert (0 <= p * (1 - p)) by nra. assert (p * p <= 1) by nra. nra. }
  set (s2 := R_sqrt.sqrt D2). assert (s2 * s2 = D2) as Hs2 by (by apply sqrt_sqrt). assert (0 <= s2) as Hs20 by apply sqrt_pos.
  set (B := K * (1 + p) + 2 * q * (m - 1)).
  assert (2 * (q * q) * y > B + s2) as Hy.
  { set (X := (R_sqrt.sqrt K * R_sqrt.sqrt D1 + K * p + K - 2 * m * p + 2 * m) / (2 * (p * p - 2 * p + 1))).
    assert (s2 <= R_sqrt.sqrt K * R_sqrt.sqrt D1) as HS. { rewrite <- sqrt_mult_alt by lra. by apply sqrt_le_1_alt. }
    assert (2 * (q * q) * X = R_sqrt.sqrt K * R_sqrt.sqrt D1 + K * p + K - 2 * m * p + 2 * m) as EX. { unfold X, q. field. nra. }
    assert (2 * (q * q) * X >= B + s2 + 2 * q) as HX by (rewrite EX; unfold B, q; nra).
    assert (0 <= X) as HX0. { assert (0 <= B) by (unfold B; nra). assert (0 < q * q) by nra. destruct (Rle_or_lt 0 X); [done|]. nra. }
    destruct (toU_bounds X HX0) as [_ Hb]. change (toU X) with mh in Hb. fold y in Hb. assert (q * q < q) by (unfold q; nra). nra. }
  assert (0 <= B) by (unfold B; nra). assert (0 <= y) as Hy0 by apply toR_0.
  set (A := 2 * q * y - K - 2 * (m - 1)).
  assert (0 <= A) as HA. { apply (Rmult_le_reg_l q); [done|]. rewrite Rmult_0_r. unfold A. assert (2 * (q * q) * y >= K * (1 + p) + 2 * q * (m - 1)) by (fold B; lra). assert (K * q <= K * (1 + p)) by (unfold q; nra). nra. }
  assert (K * K + 8 * K * p * y < A * A) as HQ.
  { apply (Rmult_lt_reg_l (q * q)); [nra|]. set (u := 2 * (q * q) * y - B). assert (s2 * s2 < u * u) by (unfold u; nra).
    assert (q * q * (A * A) - q * q * (K * K + 8 * K * p * y) = u * u - D2); [unfold A, u, B, D2, q; ring|]. nra. }
  set (s := R_sqrt.sqrt (K * K + 8 * K * p * y)). assert (s * s = K * K + 8 * K * p * y) as Hs by (apply sqrt_sqrt; assert (0 <= K * p * y) by (apply Rmult_le_pos; nra); nra). assert (0 <= s) as Hs0 by apply sqrt_pos.
  assert (s < A) as HsA by nra.
  assert (0 <= p * y + (K + s) / 2) as Hx by nra. destruct (toU_bounds _ Hx) as [Hb _]. change (toU (p * y + (K + s) / 2)) with (computeTau mh p k) in Hb.
  assert (M + computeTau mh p k < mh + 1)%N; [|lia]. apply toR_lt. rewrite !toR_add, toR_1. fold m y. unfold A, q in HsA. lra.
Qed.

(** ** The malicious receiver *)

(** The largest number of ones that is left, over the reals. *)
Lemma ma_root p t k : 0 < p < 1 -> (0 < k)%N -> exists root, 0 < root /\ toR (computeMa p t k) <= root < toR (computeMa p t k) + 1 /\
  p * root - R_sqrt.sqrt (2 * toR k * (p * root)) = toR t /\ p * root = toR k + toR t + R_sqrt.sqrt (toR k * toR k + 2 * toR k * toR t) /\
  forall y, root <= y -> toR t <= p * y - R_sqrt.sqrt (2 * toR k * (p * y)).
Proof.
  intros Hp Hk. assert (0 < toR k) as Hk' by (by apply (toR_lt 0)). pose proof (toR_0 t) as Ht. set (K := toR k) in *. set (T := toR t) in *.
  set (s := R_sqrt.sqrt (K * K + 2 * K * T)). assert (s * s = K * K + 2 * K * T) as Hs by (apply sqrt_sqrt; nra). assert (0 <= s) as Hs0 by apply sqrt_pos.
  assert (R_sqrt.sqrt (K * K * p * p + 2 * K * p * p * T) = p * s) as Es.
  { replace (K * K * p * p + 2 * K * p * p * T) with (p * p * (K * K + 2 * K * T)) by ring. rewrite sqrt_mult_alt by nra. rewrite sqrt_square by lra. done. }
  set (root := (K + T + s) / p). assert (p * root = K + T + s) as Er by (unfold root; field; lra).
  assert ((p * K + p * T + R_sqrt.sqrt (K * K * p * p + 2 * K * p * p * T)) / (p * p) = root) as EX. { rewrite Es. unfold root. field. lra. }
  assert (0 < root) as Hr by (unfold root; apply Rdiv_lt_0_compat; lra).
  assert (forall y, root <= y -> T <= p * y - R_sqrt.sqrt (2 * K * (p * y))) as HY.
  { intros y Hy. set (z := p * y). assert (K + T + s <= z) as Hz by (unfold z; rewrite <- Er; apply Rmult_le_compat_l; lra). set (v := R_sqrt.sqrt (2 * K * z)). assert (v * v = 2 * K * z) as Hv by (apply sqrt_sqrt; nra). assert (0 <= v) by apply sqrt_pos.
    assert (v <= z - T); [|lra]. destruct (Rle_or_lt v (z - T)) as [|Hlt]; [done|exfalso]. assert (0 <= z - K - T - s) by lra. assert ((z - T) * (z - T) < v * v) by nra. nra. }
  exists root. split; [done|]. split; [|split; [|split; [done|exact HY]]].
  - unfold computeMa. fold K T. rewrite EX. apply toU_bounds. lra.
  - rewrite Er. replace (2 * K * (K + T + s)) with ((K + s) * (K + s)) by (ring_simplify; replace (s ^ 2) with (s * s) by ring; rewrite Hs; ring). rewrite sqrt_square by lra. lra.
Qed.
Lemma max_root p t k root : 0 < p < 1 -> 0 < root -> toR (computeMa p t k) <= root -> p * root - R_sqrt.sqrt (2 * toR k * (p * root)) = toR t -> computeMaxOnes (computeMa p t k) p k <= root - toR t.
Proof.
  intros Hp Hr Hma <-. unfold computeMaxOnes. pose proof (toR_0 (computeMa p t k)). pose proof (toR_0 k).
  assert (R_sqrt.sqrt (2 * toR k * (p * toR (computeMa p t k))) <= R_sqrt.sqrt (2 * toR k * (p * root))) by (apply sqrt_le_1_alt; apply Rmult_le_compat_l; [lra|]; apply Rmult_le_compat_l; lra).
  assert ((1 - p) * toR (computeMa p t k) <= (1 - p) * root) by (apply Rmult_le_compat_l; lra). lra.
Qed.

Lemma cheat_rare p t k h bits (Y : nat) W : 0 < p < 1 -> (0 < k)%N -> (0 < h)%N -> computeMaxOnes (computeMa p t k) p k <= W -> 2 ^ 128 * W ^ N.to_nat h <= toR bits ^ N.to_nat h ->
  coins p Y (cheats t h bits Y) <= exp (- toR k).
Proof.
  intros Hp Hk Hh HW Hsec. assert (0 < toR k) as Hk' by (by apply (toR_lt 0)). destruct Y as [|Y'].
  { cbn [coins]. unfold cheats. rewrite N.pow_0_l by lia. rewrite N.mul_0_r. destruct (N.ltb_spec (bits ^ h) 0); [lia|]. rewrite andb_false_r. left. apply exp_pos. }
  set (Y := S Y'). assert (0 < INR Y) as HY by (apply lt_0_INR; lia).
  destruct (ma_root p t k Hp Hk) as (root & Hr & [Hr1 Hr2] & Er & _ & Hall).
  apply few_heads; [lra|nra|lra|]. intros i Hi. unfold cheats in Hi. apply andb_true_iff in Hi as [H1 H2]. apply N.leb_le in H1. apply N.ltb_lt in H2. rewrite Rmult_comm.
  destruct (Rle_or_lt (INR Y) (toR (computeMa p t k))) as [Hle|Hgt].
  - apply toR_lt in H2. rewrite toR_mul, !toR_pow, toR_nat in H2. change (toR 2) with 2 in H2. change (N.to_nat 128) with 128%nat in H2.
    assert (W < INR (Y - i)) as HWi.
    { destruct (Rle_or_lt (INR (Y - i)) W) as [C|]; [|done]. exfalso. assert (INR (Y - i) ^ N.to_nat h <= W ^ N.to_nat h) by (apply pow_incr; split; [apply pos_INR|done]). assert (0 < 2 ^ 128) by (apply pow_lt; lra). nra. }
    unfold computeMaxOnes in HW. assert (R_sqrt.sqrt (2 * toR k * (p * INR Y)) <= R_sqrt.sqrt (2 * toR k * (p * toR (computeMa p t k)))) by (apply sqrt_le_1_alt; apply Rmult_le_compat_l; [lra|]; apply Rmult_le_compat_l; lra).
    assert ((1 - p) * INR Y <= (1 - p) * toR (computeMa p t k)) by (apply Rmult_le_compat_l; lra).
    assert (0 <= W). { eapply Rle_trans; [|exact HW]. apply Rplus_le_le_0_compat; [|apply sqrt_pos]. apply Rmult_le_pos; [lra|apply toR_0]. }
    destruct (Nat.le_gt_cases i Y) as [Hi|Hi]; [rewrite minus_INR in HWi by done; lra|]. replace (Y - i)%nat with O in HWi by lia. cbn [INR] in HWi. lra.
  - assert (root <= INR Y) as HrY.
    { rewrite <- toR_nat in Hgt |- *. apply toR_lt in Hgt. assert (computeMa p t k + 1 <= N.of_nat Y)%N as G by lia. apply toR_le in G. rewrite toR_add, toR_1 in G. lra. }
    specialize (Hall _ HrY). apply toR_le in H1. rewrite toR_nat in H1. lra.
Qed.
