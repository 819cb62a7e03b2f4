(** Proofs about the parameters of RR16: bounds for sums of coins, and the formulas. *)
From Coq Require Import Reals Lra Psatz.
From Verif Require Import Base Rr16_Model AknParams_Model AknParams_Spec.
Local Open Scope R_scope.

(** ** Expectations *)

Fixpoint ex (p : R) (m : nat) (f : nat -> R) : R := match m with O => f O | S m => p * ex p m (fun i => f (S i)) + (1 - p) * ex p m f end.
Lemma coins_ex p m E : coins p m E = ex p m (fun i => if E i then 1 else 0).
Proof. revert E. induction m as [|m IH]; intros E; [done|]. cbn [coins ex]. by rewrite !IH. Qed.
Lemma ex_mono p m f g : 0 <= p <= 1 -> (forall i, (i <= m)%nat -> f i <= g i) -> ex p m f <= ex p m g.
Proof.
  intros Hp. revert f g. induction m as [|m IH]; intros f g H; [by apply H|]. cbn [ex].
  assert (ex p m (fun i => f (S i)) <= ex p m (fun i => g (S i))) by (apply IH; intros; apply H; lia). assert (ex p m f <= ex p m g) by (apply IH; intros; apply H; lia). nra.
Qed.
Lemma ex_pow p m c x : ex p m (fun i => c * x ^ i) = c * (1 - p + p * x) ^ m.
Proof.
  revert c. induction m as [|m IH]; intros c; [done|]. cbn [ex]. rewrite IH.
  replace (ex p m (fun i => c * x ^ S i)) with (c * x * (1 - p + p * x) ^ m); [cbn [Rpow_def.pow]; ring|]. rewrite <- IH. clear IH.
  assert (forall f g : nat -> R, (forall i, f i = g i) -> ex p m f = ex p m g) as Ext. { clear. induction m as [|m IH]; intros f g H; [apply H|]. cbn [ex]. by rewrite (IH f g H), (IH (fun i => f (S i)) (fun i => g (S i)) (fun i => H (S i))). }
  apply Ext. intros i. cbn [Rpow_def.pow]. ring.
Qed.
Lemma exp_pow x m : exp x ^ m = exp (INR m * x).
Proof. induction m as [|m IH]; [cbn; by rewrite Rmult_0_l, exp_0|]. rewrite S_INR. cbn [Rpow_def.pow]. rewrite IH, <- exp_plus. f_equal. ring. Qed.
Lemma exp_ge x : 1 + x <= exp x.
Proof. destruct (Req_dec x 0) as [->|D]; [rewrite exp_0; lra|]. left. by apply exp_ineq1. Qed.
Lemma exp_le x y : x <= y -> exp x <= exp y.
Proof. intros [H| ->]; [left; by apply exp_increasing|right; done]. Qed.

(** Markov's inequality for [x ^ heads]; [t] is the logarithm of [x]. *)
Lemma markov p m (E : nat -> bool) t a : 0 <= p <= 1 -> (forall i, E i = true -> t * a <= t * INR i) -> coins p m E <= exp (INR m * p * (exp t - 1) - t * a).
Proof.
  intros Hp H. rewrite coins_ex. eapply Rle_trans; [apply (ex_mono p m _ (fun i => exp (- (t * a)) * exp t ^ i)); [done|]|].
  - intros i _. rewrite exp_pow, <- exp_plus. destruct (E i) eqn:Ei; [|left; apply exp_pos]. rewrite <- exp_0. apply exp_le. specialize (H i Ei). lra.
  - rewrite ex_pow. replace (INR m * p * (exp t - 1) - t * a) with (- (t * a) + INR m * (p * (exp t - 1))) by ring. rewrite exp_plus. apply Rmult_le_compat_l; [left; apply exp_pos|].
    rewrite <- exp_pow. apply pow_incr. pose proof (exp_pos t). split; [nra|]. replace (1 - p + p * exp t) with (1 + p * (exp t - 1)) by ring. apply exp_ge.
Qed.

(** ** Two inequalities *)

Lemma incr_from_0 (f f' : R -> R) : (forall x, 0 <= x -> derivable_pt_lim f x (f' x)) -> (forall x, 0 <= x -> 0 <= f' x) -> forall x, 0 <= x -> f 0 <= f x.
Proof.
  intros D P x Hx. destruct (Req_dec x 0) as [->|N]; [lra|]. assert (0 < x) as Hx' by lra. destruct (MVT_cor2 f f' 0 x Hx') as (c & E & Hc); [intros c Hc; apply D; lra|].
  specialize (P c ltac:(lra)). nra.
Qed.
Lemma ln_ge d : 0 <= d -> 2 * d / (2 + d) <= ln (1 + d).
Proof.
  intros Hd. pose proof (incr_from_0 (fun x => ln (1 + x) - (2 - 4 * / (2 + x))) (fun x => / (1 + x) - (4 * (/ (2 + x) * / (2 + x))))) as H.
  specialize (fun a b => H a b d Hd). cbv beta in H. rewrite Rplus_0_r, ln_1 in H. assert (2 - 4 * / (2 + d) = 2 * d / (2 + d)) as <- by (field; lra). cut (0 - (2 - 4 * / (2 + 0)) <= ln (1 + d) - (2 - 4 * / (2 + d))); [intros; lra|]. apply H.
  - intros x Hx.
    assert (derivable_pt_lim (fun x => ln (1 + x)) x (/ (1 + x))) as D1.
    { replace (/ (1 + x)) with (/ (1 + x) * (0 + 1)) by ring. apply (derivable_pt_lim_comp (fun x => 1 + x) ln x (0 + 1) (/ (1 + x))).
      - apply (derivable_pt_lim_plus (fun _ => 1) (fun x => x)); [apply derivable_pt_lim_const|apply derivable_pt_lim_id].
      - apply derivable_pt_lim_ln. lra. }
    assert (derivable_pt_lim (fun x => / (2 + x)) x (- (/ (2 + x) * / (2 + x)))) as D2.
    { replace (- (/ (2 + x) * / (2 + x))) with ((0 * (2 + x) - (0 + 1) * 1) / Rsqr (2 + x)) by (unfold Rsqr; field; lra).
      replace (fun x => / (2 + x)) with (div_fct (fun _ => 1) (plus_fct (fun _ => 2) (fun x => x))).
      2:{ unfold div_fct, plus_fct. apply FunctionalExtensionality.functional_extensionality. intros y. unfold Rdiv. ring. }
      apply (derivable_pt_lim_div (fun _ => 1) (plus_fct (fun _ => 2) (fun x => x))); [apply derivable_pt_lim_const|apply derivable_pt_lim_plus; [apply derivable_pt_lim_const|apply derivable_pt_lim_id]|unfold plus_fct; lra]. }
    replace (/ (1 + x) - 4 * (/ (2 + x) * / (2 + x))) with (/ (1 + x) - (0 - 4 * (- (/ (2 + x) * / (2 + x))))) by ring.
    apply (derivable_pt_lim_minus (fun x => ln (1 + x)) (fun x => 2 - 4 * / (2 + x))); [exact D1|]. apply (derivable_pt_lim_minus (fun _ => 2) (fun x => 4 * / (2 + x))); [apply derivable_pt_lim_const|].
    apply (derivable_pt_lim_scal (fun x => / (2 + x)) 4 x). exact D2.
  - intros x Hx. replace (/ (1 + x) - 4 * (/ (2 + x) * / (2 + x))) with (x * x * (/ (1 + x) * (/ (2 + x) * / (2 + x)))) by (field; lra).
    assert (0 < / (1 + x)) by (apply Rinv_0_lt_compat; lra). assert (0 < / (2 + x)) by (apply Rinv_0_lt_compat; lra). apply Rmult_le_pos; [nra|]. apply Rmult_le_pos; [lra|]. nra.
Qed.
Lemma exp_neg_le t : 0 <= t -> exp (- t) <= 1 - t + t * t / 2.
Proof.
  intros Ht. pose proof (incr_from_0 (fun x => 1 - x + x * x / 2 - exp (- x)) (fun x => - 1 + x + exp (- x))) as H. specialize (fun a b => H a b t Ht). cbv beta in H.
  rewrite Ropp_0, exp_0 in H. cut (1 - 0 + 0 * 0 / 2 - 1 <= 1 - t + t * t / 2 - exp (- t)); [intros; lra|]. apply H.
  - intros x Hx. assert (derivable_pt_lim (fun x => exp (- x)) x (exp (- x) * (- (1)))) as D.
    { apply (derivable_pt_lim_comp (fun x => - x) exp x (- (1)) (exp (- x))); [apply (derivable_pt_lim_opp (fun x => x)); apply derivable_pt_lim_id|apply derivable_pt_lim_exp]. }
    replace (- 1 + x + exp (- x)) with ((0 - 1 + (1 * x + x * 1) * / 2) - exp (- x) * (- (1))) by field.
    apply (derivable_pt_lim_minus (fun x => 1 - x + x * x / 2) (fun x => exp (- x))); [|exact D].
    apply (derivable_pt_lim_plus (fun x => 1 - x) (fun x => x * x / 2)).
    + apply (derivable_pt_lim_minus (fun _ => 1) (fun x => x)); [apply derivable_pt_lim_const|apply derivable_pt_lim_id].
    + replace ((1 * x + x * 1) * / 2) with (/ 2 * (1 * x + x * 1)) by ring. replace (fun x => x * x / 2) with (mult_real_fct (/ 2) (mult_fct (fun x => x) (fun x => x))).
      2:{ unfold mult_real_fct, mult_fct. apply FunctionalExtensionality.functional_extensionality. intros y. field. }
      apply derivable_pt_lim_scal. apply (derivable_pt_lim_mult (fun x => x) (fun x => x)); apply derivable_pt_lim_id.
  - intros x Hx. pose proof (exp_ge (- x)). lra.
Qed.

(** ** Many and few heads *)

Lemma many_heads p m (E : nat -> bool) d k : 0 <= p <= 1 -> 0 < INR m * p -> 0 < d -> d * d = k * (2 * (INR m * p) + d) ->
  (forall i, E i = true -> INR m * p + d <= INR i) -> coins p m E <= exp (- k).
Proof.
  intros Hp Hmu Hd Hk H. set (mu := INR m * p) in *. set (t := ln (1 + d / mu)). assert (0 < d / mu) as Hq by (by apply Rdiv_lt_0_compat).
  assert (2 * d / (2 * mu + d) <= t) as Ht. { pose proof (ln_ge (d / mu) ltac:(lra)) as L. fold t in L. replace (2 * (d / mu) / (2 + d / mu)) with (2 * d / (2 * mu + d)) in L by (field; lra). done. }
  assert (0 <= t). { eapply Rle_trans; [|exact Ht]. apply Rlt_le, Rdiv_lt_0_compat; lra. }
  eapply Rle_trans; [apply (markov p m E t (mu + d) Hp)|].
  - intros i Ei. apply Rmult_le_compat_l; [done|]. by apply H.
  - apply exp_le. fold mu. unfold t at 1. rewrite exp_ln by lra. replace (mu * (1 + d / mu - 1)) with d by (field; lra).
    assert (2 * d / (2 * mu + d) * (mu + d) <= t * (mu + d)) by (apply Rmult_le_compat_r; lra). assert (d - 2 * d / (2 * mu + d) * (mu + d) = - k); [|lra].
    assert (k = d * d / (2 * mu + d)) as -> by (rewrite Hk; field; lra). field. lra.
Qed.
Lemma few_heads p m (E : nat -> bool) k : 0 <= p <= 1 -> 0 < INR m * p -> 0 <= k ->
  (forall i, E i = true -> INR i <= INR m * p - R_sqrt.sqrt (2 * k * (INR m * p))) -> coins p m E <= exp (- k).
Proof.
  intros Hp Hmu Hk H. set (mu := INR m * p) in *. set (s := R_sqrt.sqrt (2 * k * mu)) in *. assert (s * s = 2 * k * mu) as Hs by (apply sqrt_sqrt; nra). assert (0 <= s) as Hs0 by apply sqrt_pos.
  set (t := s / mu). assert (t * mu = s) as Htm by (unfold t; field; lra). assert (0 <= t) as Ht. { unfold t, Rdiv. apply Rmult_le_pos; [done|]. left. by apply Rinv_0_lt_compat. }
  eapply Rle_trans; [apply (markov p m E (- t) (mu - s) Hp)|].
  - intros i Ei. specialize (H i Ei). nra.
  - apply exp_le. fold mu. pose proof (exp_neg_le t Ht) as L. assert (mu * (exp (- t) - 1) <= mu * (- t + t * t / 2)) by (apply Rmult_le_compat_l; lra).
    assert (mu * (t * t) = 2 * k). { apply (Rmult_eq_reg_l mu); [|lra]. replace (mu * (mu * (t * t))) with (t * mu * (t * mu)) by ring. rewrite Htm. lra. }
    assert (t * s = 2 * k) by (rewrite <- Htm; lra). nra.
Qed.
