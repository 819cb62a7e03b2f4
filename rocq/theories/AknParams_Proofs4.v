(** Proofs about the parameters of RR16: the search finds parameters. *)
From Coq Require Import Reals Lra Psatz.
From Verif Require Import Base Rr16_Model AknParams_Model AknParams_Spec AknParams_Proofs AknParams_Proofs2 AknParams_Proofs3.
Local Open Scope R_scope.

Lemma sqrt_lin y a : 0 < a -> 0 <= y -> R_sqrt.sqrt y <= (y + a * a) / (2 * a).
Proof.
  intros Ha Hy. pose proof (sqrt_sqrt y Hy) as E. set (s := R_sqrt.sqrt y) in *. apply (Rmult_le_reg_l (2 * a)); [lra|]. replace (2 * a * ((y + a * a) / (2 * a))) with (y + a * a) by (field; lra). pose proof (Rle_0_sqr (s - a)) as Q. unfold Rsqr in Q. lra.
Qed.

Lemma max_first M : (8000 <= M)%N -> computeMaxOnes (computeMa (/ 1000) (computeTau (computeMh M (/ 1000) 40) (/ 1000) 40) 40) (/ 1000) 40 <= 39 * toR M.
Proof.
  intros HM. assert (8000 <= toR M) as HM' by (change 8000 with (toR 8000); by apply toR_le). set (p := / 1000). assert (p = 1 / 1000) as Ep by (unfold p; lra). assert (0 < p < 1) as Hp by lra. set (m := toR M) in *.
  set (mh := computeMh M p 40). assert (toR mh <= 11 / 10 * m) as Hmh.
  { set (X := (R_sqrt.sqrt (toR 40) * R_sqrt.sqrt (toR 40 + p * p + 2 * toR 40 * p + toR 40 - 8 * m * p * p + 8 * m * p) + toR 40 * p + toR 40 - 2 * m * p + 2 * m) / (2 * (p * p - 2 * p + 1))).
    change mh with (toU X). change (toR 40) with 40 in X. set (D := 40 + p * p + 2 * 40 * p + 40 - 8 * m * p * p + 8 * m * p) in X. assert (0 <= D) as HD by (unfold D; rewrite Ep; lra).
    assert (R_sqrt.sqrt 40 * R_sqrt.sqrt D <= m * (5 / 100)) as HS. { rewrite <- sqrt_mult_alt by lra. eapply Rle_trans; [apply (sqrt_lin _ 100); nra|]. unfold D. rewrite Ep. lra. }
    pose proof (sqrt_pos 40). pose proof (sqrt_pos D). set (S := R_sqrt.sqrt 40 * R_sqrt.sqrt D) in *. assert (0 <= S) by (unfold S; nra).
    set (d := 2 * (p * p - 2 * p + 1)) in X. assert (d = 1996002 / 1000000) as Ed by (unfold d; rewrite Ep; lra). assert (d * X = S + 40 * p + 40 - 2 * m * p + 2 * m) as EX by (unfold X; field; lra). rewrite Ed, Ep in EX.
    destruct (toU_bounds X) as [HU _]; [lra|]. lra. }
  pose proof (toR_0 mh). set (t := computeTau mh p 40). assert (toR t <= 2 / 1000 * m + 80) as Ht.
  { set (x := p * toR mh + (toR 40 + R_sqrt.sqrt (toR 40 * toR 40 + 8 * toR 40 * p * toR mh)) / 2). change t with (toU x). change (toR 40) with 40 in x. assert (0 <= 40 * 40 + 8 * 40 * p * toR mh) as Hs0 by (rewrite Ep; lra).
    pose proof (sqrt_pos (40 * 40 + 8 * 40 * p * toR mh)) as Hs1. pose proof (sqrt_lin _ 200 ltac:(lra) Hs0) as Hs2. destruct (toU_bounds x) as [H1 _]; [unfold x; rewrite Ep in *; lra|]. eapply Rle_trans; [exact H1|]. unfold x. rewrite Ep in *. lra. }
  pose proof (toR_0 t). destruct (ma_root p t 40 Hp ltac:(done)) as (root & Hr & [Hr1 _] & Er & Es & _). eapply Rle_trans; [by apply (max_root p t 40 root)|]. change (toR 40) with 40 in Es.
  assert (0 <= 40 * 40 + 2 * 40 * toR t) as Hs0 by lra. pose proof (sqrt_lin _ 100 ltac:(lra) Hs0) as Hs2. rewrite Ep in Es. lra.
Qed.

Lemma pLoop_keeps fuel n kappa h p ch best' : pLoop fuel n kappa h p (Some ch) = Some best' -> exists ch', best' = Some ch'.
Proof.
  revert p ch. induction fuel as [|fuel IH]; intros p ch H; rewrite pLoop_eq in H; (destruct (Rlt_dec p (/ 10)); [|injection H as <-; by exists ch]); [done|]. cbv zeta in H. unfold compute in H.
  destruct (cLoop _ _ _ _ _ _) as [[c sec]|]; [|done]. cbn [mbind option_bind] in H. destruct (Rlt_dec _ _); [destruct (Rle_dec _ _)|]; by apply IH in H.
Qed.
Lemma hLoop_keeps hs n kappa ch best' : hLoop hs n kappa (Some ch) = Some best' -> exists ch', best' = Some ch'.
Proof.
  revert ch. induction hs as [|h hs IH]; intros ch H; cbn [hLoop] in H; [injection H as <-; by exists ch|]. destruct (pLoop _ _ _ _ _ _) as [b|] eqn:E; [|done]. apply pLoop_keeps in E as [ch' ->]. cbn [mbind option_bind] in H. by apply IH in H.
Qed.
Lemma cLoop_end fuel nh mx h c0 sec0 c sec : cLoop fuel nh mx h c0 sec0 = Some (c, sec) -> 128 <= sec \/ 120 <= c.
Proof.
  revert c0 sec0. induction fuel as [|fuel IH]; intros c0 sec0 H; rewrite cLoop_eq in H; (destruct (Rlt_dec sec0 128); [|injection H as <- <-; left; lra]); (destruct (Rlt_dec c0 120); [|injection H as <- <-; right; lra]); [done|]. by apply IH in H.
Qed.
Lemma cLoop_le fuel nh mx h c0 sec0 c sec : cLoop fuel nh mx h c0 sec0 = Some (c, sec) -> c0 <= 121 -> c <= 121.
Proof.
  revert c0 sec0. induction fuel as [|fuel IH]; intros c0 sec0 H Hc; rewrite cLoop_eq in H; (destruct (Rlt_dec sec0 128); [|by injection H as <- <-]); (destruct (Rlt_dec c0 120); [|by injection H as <- <-]); [done|]. apply IH in H; [done|lra].
Qed.

Lemma num_pow : 2 ^ 128 <= (120 / 39) ^ 80.
Proof. lra. Qed.
Lemma num_total x c : 0 <= x -> x < toR (2 ^ 64) -> c <= 121 -> x * c / (1 - / 1000) < bestTotal None.
Proof.
  intros Hx0 Hx Hc. cbn [bestTotal]. apply (Rmult_lt_reg_r (1 - / 1000)); [lra|]. replace (x * c / (1 - / 1000) * (1 - / 1000)) with (x * c) by (field; lra).
  apply Rle_lt_trans with (x * 121); [apply Rmult_le_compat_l; lra|]. change (toR (2 ^ 64)) with 18446744073709551616 in Hx. lra.
Qed.
Lemma ma_ge t : 1 <= toR (computeMa (/ 1000) t 40).
Proof.
  destruct (ma_root (/ 1000) t 40 ltac:(lra) ltac:(done)) as (root & _ & [_ Hr2] & _ & Es & _). pose proof (toR_0 t) as Ht0. match type of Es with _ = _ + _ + R_sqrt.sqrt ?y => pose proof (sqrt_pos y) end.
  change (toR 40) with 40 in *. lra.
Qed.
Lemma sec_ok (x mx : R) : 0 < mx -> mx <= 39 * x -> 0 < x -> forall c, 120 <= c -> 128 <= ln ((x * c / mx) ^ N.to_nat 80) / ln 2.
Proof.
  intros Hmx0 Hmx Hx c Hc2. assert (0 < ln 2) as Hln by (rewrite <- ln_1; apply ln_increasing; lra).
  apply (Rmult_le_reg_r (ln 2)); [done|]. change (N.to_nat 80) with 80%nat. set (z := ln ((x * c / mx) ^ 80)). replace (z / ln 2 * ln 2) with z by (field; lra). unfold z. replace (128 * ln 2) with (ln (2 ^ 128)).
  2:{ rewrite (ln_pow 2 ltac:(lra) 128). f_equal. by rewrite INR_IZR_INZ. }
  assert (120 / 39 <= x * c / mx) as Hq. { apply (Rmult_le_reg_r mx); [done|]. replace (x * c / mx * mx) with (x * c) by (field; lra). nra. }
  assert (2 ^ 128 <= (x * c / mx) ^ 80) as Hpow. { apply Rle_trans with ((120 / 39) ^ 80); [apply num_pow|apply pow_incr; lra]. }
  destruct (Rle_lt_or_eq_dec _ _ Hpow) as [Hlt|Heq]; [left; apply ln_increasing; [apply pow_lt; lra|done]|right; by rewrite Heq].
Qed.
Lemma first_some n fuel best : (100 <= n)%N -> (n * 100 < 2 ^ 64)%N -> pLoop (S fuel) n 40 80 (/ 1000) None = Some best -> exists ch, best = Some ch.
Proof.
  intros Hn Hw E. rewrite pLoop_eq in E. destruct (Rlt_dec (/ 1000) (/ 10)); [|lra]. cbv zeta in E. unfold compute in E.
  rewrite N.mod_small in E by (unfold two64; lia). set (M := (n * 80)%N) in *. assert (8000 <= M)%N as HM by lia. pose proof (max_first M HM) as Hmx. set (t := computeTau _ _ _) in *. pose proof (ma_ge t) as Hma. set (mx := computeMaxOnes _ _ _) in *.
  destruct (cLoop _ _ _ _ _ _) as [[c sec]|] eqn:EC; [|done]. cbn [mbind option_bind] in E.
  assert (8000 <= toR M) as HM' by (change 8000 with (toR 8000); by apply toR_le). assert (toR M < toR (2 ^ 64)) as HM2 by (apply toR_lt; lia).
  pose proof (cLoop_le _ _ _ _ _ _ _ _ EC ltac:(lra)) as Hc. pose proof (num_total (toR M) c ltac:(lra) HM2 Hc) as Htot.
  destruct (Rlt_dec _ _) as [_|Hb]; [|by destruct Hb]. destruct (Rle_dec 128 sec) as [_|Hs]; [by apply pLoop_keeps in E as [ch ->]; exists ch|exfalso; apply Hs; clear Hs].
  destruct (cLoop_end _ _ _ _ _ _ _ _ EC) as [|Hc2]; [done|]. apply cLoop_sec in EC as [[= -> ->]|[_ ->]]; [lra|]. apply sec_ok; [|done|lra|done].
  unfold mx, computeMaxOnes. pose proof (sqrt_pos (2 * toR 40 * (/ 1000 * toR (computeMa (/ 1000) t 40)))). lra.
Qed.
Lemma search_finds n : (100 <= n)%N -> (n * 100 < 2 ^ 64)%N -> exists a, searchParams n 40 = Done (Some a).
Proof.
  intros Hn Hw. unfold searchParams. assert (map N.of_nat (seq 80 20) = 80%N :: map N.of_nat (seq 81 19)) as -> by done. cbn [hLoop].
  destruct (pLoop_ok (2 ^ 7) n 40 80 (/ 1000) None ltac:(lia)) as (best & E & G); [lra|rewrite pow7; lra|done|].
  assert (exists ch, best = Some ch) as [ch ->]. { assert (exists f, 2 ^ 7 = S f)%nat as [f Ef] by (by exists 127%nat). rewrite Ef in E. exact (first_some n f best Hn Hw E). }
  rewrite E. cbn [mbind option_bind]. destruct (hLoop_ok (map N.of_nat (seq 81 19)) n 40 (Some ch)) as (best & E2 & _); [|done|].
  { apply Forall_forall. intros h Hh. apply elem_of_list_fmap in Hh as (i & -> & Hi). apply elem_of_seq in Hi. lia. }
  rewrite E2. apply hLoop_keeps in E2 as [[[[[[total p] c] h] mh] thr] ->]. by eexists.
Qed.
