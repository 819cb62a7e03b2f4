(** The distribution functions of GRR18's noise, sums and probabilities. *)
From Coq Require Import Reals Lra Psatz.
From Verif Require Import Base Grr18_Model GrrNoise_Model GrrNoise_Spec.
Local Open Scope R_scope.

(** ** The two-sided distribution *)
Section Lap.
Context (a : R) (Ha : 0 < a).
Lemma exp_le x y : x <= y -> exp x <= exp y.
Proof using. intros [H| ->]; [left; by apply exp_increasing|right; done]. Qed.
Lemma exp_pm x : exp x * exp (- x) = 1.
Proof using. rewrite <- exp_plus, Rplus_opp_r. apply exp_0. Qed.
Lemma lap_neg x : x <= 0 -> lapCdf a x = exp (a * x) / 2.
Proof using.
  intros H. unfold lapCdf. destruct (Rlt_dec x 0); [done|]. assert (x = 0) as -> by lra. rewrite Rmult_0_r, Ropp_0, exp_0. lra.
Qed.
Lemma lap_pos x : 0 <= x -> lapCdf a x = 1 - exp (- (a * x)) / 2.
Proof using. intros H. unfold lapCdf. destruct (Rlt_dec x 0); [lra|done]. Qed.
Lemma lap_bound x : 0 <= lapCdf a x <= 1.
Proof using Ha.
  destruct (Rle_or_lt x 0) as [H|H].
  - rewrite lap_neg by done. pose proof (exp_pos (a * x)). assert (exp (a * x) <= 1); [|lra]. rewrite <- exp_0. apply exp_le. nra.
  - rewrite lap_pos by lra. pose proof (exp_pos (- (a * x))). assert (exp (- (a * x)) <= 1); [|lra]. rewrite <- exp_0. apply exp_le. nra.
Qed.
Lemma lap_incr x y : x < y -> lapCdf a x < lapCdf a y.
Proof using Ha.
  intros H. destruct (Rle_or_lt y 0) as [Hy|Hy].
  - rewrite !lap_neg by lra. assert (exp (a * x) < exp (a * y)); [|lra]. apply exp_increasing. nra.
  - destruct (Rle_or_lt x 0) as [Hx|Hx].
    + rewrite lap_neg, lap_pos by lra. assert (exp (a * x) <= 1) by (rewrite <- exp_0; apply exp_le; nra).
      assert (exp (- (a * y)) < 1); [|lra]. rewrite <- exp_0. apply exp_increasing. nra.
    + rewrite !lap_pos by lra. assert (exp (- (a * y)) < exp (- (a * x))); [|lra]. apply exp_increasing. nra.
Qed.
Lemma lap_le x y : x <= y -> lapCdf a x <= lapCdf a y.
Proof using Ha. intros [H| ->]; [left; by apply lap_incr|lra]. Qed.
Lemma lap_sym x : lapCdf a (- x) = 1 - lapCdf a x.
Proof using.
  destruct (Rle_or_lt x 0) as [H|H].
  - rewrite lap_pos, lap_neg by lra. replace (- (a * - x)) with (a * x) by ring. lra.
  - rewrite lap_neg, lap_pos by lra. replace (a * - x) with (- (a * x)) by ring. lra.
Qed.

Local Definition gap (d x : R) : R := exp (a * d) * lapCdf a (x - d) - lapCdf a x.
Lemma gap1 d x : 0 <= d -> x <= 0 -> gap d x = 0.
Proof using.
  intros Hd Hx. unfold gap. rewrite !lap_neg by lra. replace (a * x) with (a * d + a * (x - d)) by ring. rewrite exp_plus. lra.
Qed.
Lemma gap2 d x : 0 <= x <= d -> gap d x = exp (a * x) / 2 + exp (- (a * x)) / 2 - 1.
Proof using.
  intros H. unfold gap. rewrite lap_neg, lap_pos by lra. replace (exp (a * x)) with (exp (a * d) * exp (a * (x - d))); [lra|].
  rewrite <- exp_plus. f_equal. ring.
Qed.
Lemma gap3 d x : 0 <= d <= x -> gap d x = exp (a * d) - 1 - exp (- (a * x)) * (exp (a * d) * exp (a * d) - 1) / 2.
Proof using.
  intros H. unfold gap. rewrite !lap_pos by lra. replace (- (a * (x - d))) with (a * d + - (a * x)) by ring. rewrite exp_plus. lra.
Qed.
Lemma gap_mono1 d x y : 0 <= d -> x <= y -> y <= 0 -> gap d x <= gap d y.
Proof using. intros. rewrite !gap1 by lra. lra. Qed.
Lemma gap_mono2 d x y : 0 <= x -> x <= y -> y <= d -> gap d x <= gap d y.
Proof using Ha.
  intros. rewrite !gap2 by lra. pose proof (exp_pm (a * x)) as Eu. pose proof (exp_pm (a * y)) as Ev.
  assert (1 <= exp (a * x)) by (rewrite <- exp_0; apply exp_le; nra). assert (exp (a * x) <= exp (a * y)) by (apply exp_le; nra).
  pose proof (exp_pos (- (a * x))). pose proof (exp_pos (- (a * y))).
  set (u := exp (a * x)) in *. set (v := exp (a * y)) in *. set (u' := exp (- (a * x))) in *. set (v' := exp (- (a * y))) in *.
  assert (v' <= u') by (apply exp_le; nra). assert (u' <= 1) by (rewrite <- exp_0; apply exp_le; nra).
  assert (u' - v' = (v - u) * (u' * v')).
  { replace ((v - u) * (u' * v')) with ((v * v') * u' - (u * u') * v') by ring. rewrite Eu, Ev. ring. }
  assert (u' * v' <= 1 * 1) by (apply Rmult_le_compat; lra). assert (0 <= (v - u) * (1 - u' * v')) by (apply Rmult_le_pos; lra). lra.
Qed.
Lemma gap_mono3 d x y : 0 <= d -> d <= x -> x <= y -> gap d x <= gap d y.
Proof using Ha.
  intros. rewrite !gap3 by lra. assert (1 <= exp (a * d)) by (rewrite <- exp_0; apply exp_le; nra).
  assert (exp (- (a * y)) <= exp (- (a * x))) by (apply exp_le; nra).
  set (w := exp (a * d)) in *. assert (1 <= w * w) by nra.
  assert (0 <= (exp (- (a * x)) - exp (- (a * y))) * (w * w - 1)) by (apply Rmult_le_pos; lra). lra.
Qed.
Lemma gap_mono d x y : 0 <= d -> x <= y -> gap d x <= gap d y.
Proof using Ha.
  intros Hd Hxy.
  assert (forall x y, x <= y -> y <= d -> gap d x <= gap d y) as M12.
  { clear x y Hxy. intros x y Hxy Hy. destruct (Rle_or_lt y 0); [by apply gap_mono1|]. destruct (Rle_or_lt x 0).
    - eapply Rle_trans; [apply (gap_mono1 d x 0); lra|apply gap_mono2; lra].
    - apply gap_mono2; lra. }
  destruct (Rle_or_lt y d); [by apply M12|]. destruct (Rle_or_lt x d).
  - eapply Rle_trans; [apply (M12 x d); lra|apply gap_mono3; lra].
  - apply gap_mono3; lra.
Qed.
(** Shifting an interval by [d] changes its probability by a factor of at most [exp (a * d)]. *)
Lemma lap_right d x y : 0 <= d -> x <= y -> lapCdf a y - lapCdf a x <= exp (a * d) * (lapCdf a (y - d) - lapCdf a (x - d)).
Proof using Ha. intros Hd Hxy. pose proof (gap_mono d x y Hd Hxy) as H. unfold gap in H. lra. Qed.
Lemma lap_left d x y : 0 <= d -> x <= y -> lapCdf a y - lapCdf a x <= exp (a * d) * (lapCdf a (y + d) - lapCdf a (x + d)).
Proof using Ha.
  intros Hd Hxy. pose proof (lap_right d (- y) (- x) Hd ltac:(lra)) as H.
  replace (- x - d) with (- (x + d)) in H by ring. replace (- y - d) with (- (y + d)) in H by ring. rewrite !lap_sym in H. lra.
Qed.
Lemma lap_shift d x y : x <= y -> lapCdf a y - lapCdf a x <= exp (a * Rabs d) * (lapCdf a (y - d) - lapCdf a (x - d)).
Proof using Ha.
  intros Hxy. destruct (Rle_or_lt 0 d) as [H|H].
  - rewrite Rabs_right by lra. by apply lap_right.
  - rewrite Rabs_left by lra. pose proof (lap_left (- d) x y ltac:(lra) Hxy) as G. replace (y + - d) with (y - d) in G by ring. replace (x + - d) with (x - d) in G by ring. exact G.
Qed.
End Lap.

(** ** The one-sided distribution *)
Section Exp.
Context (a : R) (Ha : 0 < a).
Lemma ex_neg x : x <= 0 -> expCdf a x = 0.
Proof using. intros H. unfold expCdf. destruct (Rlt_dec x 0); [done|]. assert (x = 0) as -> by lra. rewrite Rmult_0_r, Ropp_0, exp_0. lra. Qed.
Lemma ex_pos x : 0 <= x -> expCdf a x = 1 - exp (- (a * x)).
Proof using. intros H. unfold expCdf. destruct (Rlt_dec x 0); [lra|done]. Qed.
Lemma ex_bound x : 0 <= expCdf a x <= 1.
Proof using Ha.
  destruct (Rle_or_lt x 0) as [H|H]; [rewrite ex_neg by done; lra|].
  rewrite ex_pos by lra. pose proof (exp_pos (- (a * x))). assert (exp (- (a * x)) <= 1); [|lra]. rewrite <- exp_0. apply exp_le. nra.
Qed.
Lemma ex_le x y : x <= y -> expCdf a x <= expCdf a y.
Proof using Ha.
  intros H. destruct (Rle_or_lt x 0) as [Hx|Hx]; [rewrite (ex_neg x) by done; apply ex_bound|].
  rewrite !ex_pos by lra. assert (exp (- (a * y)) <= exp (- (a * x))); [|lra]. apply exp_le. nra.
Qed.
(** To the left of one: probability grows by at most [exp a]; *)
Lemma ex_right x y : x <= y -> expCdf a (y - 1) - expCdf a (x - 1) <= exp a * (expCdf a y - expCdf a x).
Proof using Ha.
  intros H. pose proof (exp_pos a). assert (forall z, 1 <= z -> expCdf a (z - 1) = 1 - exp a * exp (- (a * z))) as E.
  { intros z Hz. rewrite ex_pos by lra. rewrite <- exp_plus. do 2 f_equal. ring. }
  destruct (Rle_or_lt y 1) as [Hy|Hy].
  - rewrite !ex_neg by lra. pose proof (ex_le x y H). nra.
  - rewrite (E y) by lra. rewrite (ex_pos y) by lra. destruct (Rle_or_lt x 1) as [Hx|Hx].
    + rewrite (ex_neg (x - 1)) by lra. assert (expCdf a x <= 1 - exp (- a)); [|pose proof (exp_pm a); nra].
      replace (1 - exp (- a)) with (expCdf a 1); [by apply ex_le|]. rewrite ex_pos by lra. do 3 f_equal. ring.
    + rewrite (E x), (ex_pos x) by lra. lra.
Qed.
(** to the right it does not grow, from [0] on. *)
Lemma ex_left x y : 0 <= x -> x <= y -> expCdf a (y + 1) - expCdf a (x + 1) <= expCdf a y - expCdf a x.
Proof using Ha.
  intros Hx H. rewrite !ex_pos by lra. replace (- (a * (y + 1))) with (- a + - (a * y)) by ring. replace (- (a * (x + 1))) with (- a + - (a * x)) by ring.
  rewrite !exp_plus. assert (exp (- a) <= 1) by (rewrite <- exp_0; apply exp_le; lra). assert (exp (- (a * y)) <= exp (- (a * x))) by (apply exp_le; nra). nra.
Qed.
End Exp.

(** ** Sums *)
Lemma rsum_cons {A} (x : A) l f : rsum (x :: l) f = f x + rsum l f.
Proof. done. Qed.
Lemma rsum_nil {A} (f : A -> R) : rsum [] f = 0.
Proof. done. Qed.
Lemma rsum_le {A} (l : list A) f g : (forall x, x ∈ l -> f x <= g x) -> rsum l f <= rsum l g.
Proof. induction l as [|x l IH]; intros H; [rewrite !rsum_nil; lra|]. rewrite !rsum_cons. pose proof (H x ltac:(left)). pose proof (IH ltac:(intros; apply H; by right)). lra. Qed.
Lemma rsum_ext {A} (l : list A) f g : (forall x, x ∈ l -> f x = g x) -> rsum l f = rsum l g.
Proof. intros H. apply Rle_antisym; apply rsum_le; intros x Hx; rewrite (H x Hx); lra. Qed.
Lemma rsum_zero {A} (l : list A) f : (forall x, x ∈ l -> f x = 0) -> rsum l f = 0.
Proof. intros H. rewrite (rsum_ext l f (fun _ => 0)) by done. clear H. induction l; rewrite ?rsum_nil, ?rsum_cons; lra. Qed.
Lemma rsum_nonneg {A} (l : list A) f : (forall x, x ∈ l -> 0 <= f x) -> 0 <= rsum l f.
Proof. intros H. rewrite <- (rsum_zero l (fun _ => 0)) by done. by apply rsum_le. Qed.
Lemma rsum_plus {A} (l : list A) f g : rsum l (fun x => f x + g x) = rsum l f + rsum l g.
Proof. induction l as [|x l IH]; cbn [app]; rewrite ?rsum_nil, ?rsum_cons, ?IH; lra. Qed.
Lemma rsum_scale {A} (l : list A) k f : rsum l (fun x => k * f x) = k * rsum l f.
Proof. induction l as [|x l IH]; cbn [app]; rewrite ?rsum_nil, ?rsum_cons, ?IH; lra. Qed.
Lemma rsum_app {A} (l l' : list A) f : rsum (l ++ l') f = rsum l f + rsum l' f.
Proof. induction l as [|x l IH]; cbn [app]; rewrite ?rsum_nil, ?rsum_cons, ?IH; lra. Qed.
Lemma rsum_one {A} (l : list A) f x : x ∈ l -> (forall y, y ∈ l -> 0 <= f y) -> f x <= rsum l f.
Proof.
  intros Hx H. apply elem_of_list_split in Hx as (l1 & l2 & ->). rewrite rsum_app, rsum_cons.
  assert (0 <= rsum l1 f) by (apply rsum_nonneg; intros; apply H, elem_of_app; by left). assert (0 <= rsum l2 f) by (apply rsum_nonneg; intros; apply H, elem_of_app; right; by right). lra.
Qed.

(** ** Laws *)
Lemma conv_step v : convLo (v + 1) = convHi v.
Proof.
  unfold convLo, convHi. destruct (Z.ltb_spec 0 (v + 1)), (Z.ltb_spec v 0); try lia; rewrite plus_IZR; lra.
Qed.
Lemma conv_lt v : convLo v < convHi v.
Proof. unfold convLo, convHi. destruct (Z.ltb_spec 0 v), (Z.ltb_spec v 0); first [lra|lia]. Qed.
Definition isLaw (law : Z -> R) : Prop := (forall v, 0 <= law v) /\ rsum ints law <= 1.
Lemma law_sum F base lo n : (0 <= n)%Z -> rsum (seqZ lo n) (convLaw F base) = F (convLo (lo + n) - base) - F (convLo lo - base).
Proof.
  intros Hn. revert n Hn lo. apply (natlike_ind (fun n => forall lo, rsum (seqZ lo n) (convLaw F base) = F (convLo (lo + n) - base) - F (convLo lo - base))).
  - intros lo. rewrite seqZ_nil by lia. cbn. rewrite Z.add_0_r. lra.
  - intros n Hn IH lo. rewrite seqZ_cons by lia. rewrite Z.pred_succ. change (rsum (lo :: ?l) ?f) with (f lo + rsum l f). cbv beta.
    rewrite IH. unfold convLaw. rewrite <- conv_step. replace (lo + Z.succ n)%Z with (Z.succ lo + n)%Z by lia. replace (lo + 1)%Z with (Z.succ lo) by lia. lra.
Qed.
Lemma conv_law F base : (forall x, 0 <= F x <= 1) -> (forall x y, x <= y -> F x <= F y) -> isLaw (convLaw F base).
Proof.
  intros HB HM. split.
  - intros v. unfold convLaw. pose proof (conv_lt v). pose proof (HM (convLo v - base) (convHi v - base) ltac:(lra)). lra.
  - unfold ints. rewrite law_sum by lia. pose proof (HB (convLo (- 2 ^ 64 + 2 ^ 65) - base)). pose proof (HB (convLo (- 2 ^ 64) - base)). lra.
Qed.

(** ** Probabilities *)
Lemma prob_ext laws ev ev' : (forall vs, length vs = length laws -> ev vs = ev' vs) -> prob laws ev = prob laws ev'.
Proof.
  revert ev ev'. induction laws as [|law laws IH]; intros ev ev' H; cbn [prob]; [by rewrite (H [])|].
  apply rsum_ext. intros v _. f_equal. apply IH. intros vs L. apply H. cbn. by rewrite L.
Qed.
Lemma prob_bound laws ev : Forall isLaw laws -> 0 <= prob laws ev <= 1.
Proof.
  revert ev. induction laws as [|law laws IH]; intros ev H; cbn [prob]; [destruct (ev []); lra|].
  apply Forall_cons in H as [[P S] H]. split.
  - apply rsum_nonneg. intros v _. pose proof (P v). pose proof (IH (fun vs => ev (v :: vs)) H). nra.
  - eapply Rle_trans; [|exact S]. apply rsum_le. intros v _. pose proof (P v). pose proof (IH (fun vs => ev (v :: vs)) H). nra.
Qed.
Lemma prob_mono laws ev ev' : Forall isLaw laws -> (forall vs, length vs = length laws -> ev vs = true -> ev' vs = true) -> prob laws ev <= prob laws ev'.
Proof.
  revert ev ev'. induction laws as [|law laws IH]; intros ev ev' H HE; cbn [prob].
  - destruct (ev []) eqn:E; [rewrite (HE [] eq_refl E); lra|]. destruct (ev' []); lra.
  - apply Forall_cons in H as [[P S] H]. apply rsum_le. intros v _. pose proof (P v).
    assert (prob laws (fun vs => ev (v :: vs)) <= prob laws (fun vs => ev' (v :: vs))) by (apply IH; [done|]; intros vs L; apply HE; cbn; by rewrite L). nra.
Qed.
Lemma prob_or laws ev ev' : Forall isLaw laws -> prob laws (fun vs => ev vs || ev' vs) <= prob laws ev + prob laws ev'.
Proof.
  intros H. revert ev ev'. induction H as [|law laws [P S] H IH]; intros ev ev'; cbn [prob]; [destruct (ev []), (ev' []); cbn; lra|].
  rewrite <- rsum_plus. apply rsum_le. intros v _. pose proof (P v). pose proof (IH (fun vs => ev (v :: vs)) (fun vs => ev' (v :: vs))) as G. cbv beta in G. nra.
Qed.
(** Laws that differ in one place, and events that differ only if the number in that place is bad. *)
Lemma prob_dp K bad pre law law' post ev ev' : 0 <= K -> Forall isLaw pre -> isLaw law -> isLaw law' -> Forall isLaw post ->
  (forall v, bad v = false -> law v <= K * law' v) ->
  (forall vs v ws, length vs = length pre -> length ws = length post -> ev (vs ++ v :: ws) = true -> bad v = false -> ev' (vs ++ v :: ws) = true) ->
  prob (pre ++ law :: post) ev <= K * prob (pre ++ law' :: post) ev' + prob [law] (fun vs => match vs with v :: _ => bad v | [] => false end).
Proof.
  intros HK HP HL HL' HQ HS. revert ev ev'. induction pre as [|m pre IH]; intros ev ev' HE.
  - cbn [app prob]. rewrite <- rsum_scale, <- rsum_plus. apply rsum_le. intros v _. pose proof (proj1 HL v). pose proof (proj1 HL' v).
    pose proof (prob_bound post (fun vs => ev (v :: vs)) HQ). pose proof (prob_bound post (fun vs => ev' (v :: vs)) HQ).
    destruct (bad v) eqn:B.
    + assert (0 <= K * (law' v * prob post (fun vs => ev' (v :: vs)))) by (apply Rmult_le_pos; nra). nra.
    + specialize (HS v B). assert (prob post (fun vs => ev (v :: vs)) <= prob post (fun vs => ev' (v :: vs))) by (apply prob_mono; [done|]; intros ws Lw EW; by apply (HE [] v ws)).
      rewrite Rmult_0_r, Rplus_0_r, <- Rmult_assoc. apply Rmult_le_compat; lra.
  - apply Forall_cons in HP as [[P S] HP]. cbn [app]. assert (Forall isLaw [law]) as HF by (constructor; [exact HL|constructor]).
    pose proof (proj1 (prob_bound [law] (fun vs => match vs with v :: _ => bad v | [] => false end) HF)) as HD. clear HF.
    set (D := prob [law] _) in *. change (prob (m :: ?l) ?f) with (rsum ints (fun v => m v * prob l (fun vs => f (v :: vs)))).
    eapply Rle_trans; [apply (rsum_le _ _ (fun v => K * (m v * prob (pre ++ law' :: post) (fun vs => ev' (v :: vs))) + D * m v))|].
    + intros v _. pose proof (P v). assert (prob (pre ++ law :: post) (fun vs => ev (v :: vs)) <= K * prob (pre ++ law' :: post) (fun vs => ev' (v :: vs)) + D) as G; [|nra].
      apply IH; [done|]. intros vs w ws Lv Lw. apply (HE (v :: vs) w ws); cbn; [by rewrite Lv|done].
    + rewrite rsum_plus, !rsum_scale. change (rsum ints m) with (rsum ints m). nra.
Qed.
