(** One-sided noise, what pure differential privacy would need, the buffer, and the number of masks of GRR18. *)
From Coq Require Import Reals Lra Psatz.
From Verif Require Import Base Grr18_Model Grr18_Proofs GrrNoise_Model GrrNoise_Spec GrrNoise_Proofs GrrNoise_Proofs2.
Local Open Scope R_scope.
Local Opaque ints.

Lemma sizeR_succ s : sizeR (s + 1) = sizeR s + 1.
Proof. unfold sizeR. rewrite N2Z.inj_add, plus_IZR. done. Qed.
Lemma elem_ints v : v ∈ ints <-> (- 2 ^ 64 <= v < 2 ^ 64)%Z.
Proof. Local Transparent ints. unfold ints. rewrite elem_of_seqZ. lia. Qed.
Local Opaque ints.
Lemma conv_mono v w : (v <= w)%Z -> convLo v <= convLo w.
Proof. intros H. unfold convLo. apply IZR_le in H as H'. destruct (Z.ltb_spec 0 v), (Z.ltb_spec 0 w); try lia; lra. Qed.
(** Sums over the values on one side of [m]. *)
Lemma seqZ_split lo hi n m : (lo <= m <= hi)%Z -> (lo + n = hi)%Z -> seqZ lo n = seqZ lo (m - lo) ++ seqZ m (hi - m).
Proof. intros H <-. replace n with ((m - lo) + (lo + n - m))%Z at 1 by lia. rewrite seqZ_app by lia. replace (lo + (m - lo))%Z with m by lia. reflexivity. Qed.
Lemma ints_split m : (- 2 ^ 64 <= m <= 2 ^ 64)%Z -> ints = seqZ (- 2 ^ 64) (m - - 2 ^ 64) ++ seqZ m (2 ^ 64 - m).
Proof.
  Local Transparent ints. intros H. unfold ints. rewrite <- (seqZ_split (- 2 ^ 64) (2 ^ 64) (2 ^ 65) m H); reflexivity.
Qed.
Local Opaque ints.
Section Sides.
Context (F : R -> R) (base : R) (HB : forall x, 0 <= F x <= 1) (HM : forall x y, x <= y -> F x <= F y).
Lemma law_below_in m : (- 2 ^ 64 <= m <= 2 ^ 64)%Z ->
  rsum ints (fun v => if (v <? m)%Z then convLaw F base v else 0) = F (convLo m - base) - F (convLo (- 2 ^ 64) - base).
Proof using HB HM.
  intros Hm. rewrite (ints_split m Hm), rsum_app. rewrite (rsum_ext (seqZ (- 2 ^ 64) _) _ (convLaw F base)).
  - rewrite law_sum by lia. rewrite (rsum_zero (seqZ m _)).
    + replace (- 2 ^ 64 + (m - - 2 ^ 64))%Z with m by lia. lra.
    + intros v Hv. apply elem_of_seqZ in Hv. destruct (Z.ltb_spec v m); [lia|done].
  - intros v Hv. apply elem_of_seqZ in Hv. destruct (Z.ltb_spec v m); [done|lia].
Qed.
Lemma law_above_in m : (- 2 ^ 64 <= m <= 2 ^ 64)%Z ->
  rsum ints (fun v => if (m <=? v)%Z then convLaw F base v else 0) = F (convLo (2 ^ 64) - base) - F (convLo m - base).
Proof using HB HM.
  intros Hm. rewrite (ints_split m Hm), rsum_app. rewrite (rsum_ext (seqZ m _) _ (convLaw F base)).
  - rewrite law_sum by lia. rewrite (rsum_zero (seqZ (- 2 ^ 64) _)).
    + replace (m + (2 ^ 64 - m))%Z with (2 ^ 64)%Z by lia. lra.
    + intros v Hv. apply elem_of_seqZ in Hv. destruct (Z.leb_spec m v); [lia|done].
  - intros v Hv. apply elem_of_seqZ in Hv. destruct (Z.leb_spec m v); [done|lia].
Qed.
Lemma law_below m : rsum ints (fun v => if (v <? m)%Z then convLaw F base v else 0) <= F (convLo m - base).
Proof using HB HM.
  destruct (decide (m < - 2 ^ 64)%Z) as [H1|H1].
  - rewrite rsum_zero; [apply HB|]. intros v Hv. apply elem_ints in Hv. destruct (Z.ltb_spec v m); [lia|done].
  - destruct (decide (m <= 2 ^ 64)%Z) as [H2|H2].
    + rewrite law_below_in by lia. pose proof (HB (convLo (- 2 ^ 64) - base)). lra.
    + rewrite (rsum_ext _ _ (fun v => if (v <? 2 ^ 64)%Z then convLaw F base v else 0)).
      * rewrite law_below_in by lia. pose proof (HB (convLo (- 2 ^ 64) - base)). pose proof (conv_mono (2 ^ 64) m ltac:(lia)).
        pose proof (HM (convLo (2 ^ 64) - base) (convLo m - base) ltac:(lra)). lra.
      * intros v Hv. apply elem_ints in Hv. destruct (Z.ltb_spec v m), (Z.ltb_spec v (2 ^ 64)); try lia; done.
Qed.
End Sides.
Lemma prob_one law ev : prob [law] (fun vs => match vs with v :: _ => ev v | [] => false end) = rsum ints (fun v => if ev v then law v else 0).
Proof. cbn [prob]. apply rsum_ext. intros v _. destruct (ev v); lra. Qed.
Lemma prob_never law : prob [law] (fun vs => match vs with v :: _ => false | [] => false end) = 0.
Proof. cbn [prob]. apply rsum_zero. intros v _. lra. Qed.
Lemma prob_below F base m : (forall x, 0 <= F x <= 1) -> (forall x y, x <= y -> F x <= F y) ->
  prob [convLaw F base] (fun vs => match vs with v :: _ => (v <? m)%Z | [] => false end) <= F (convLo m - base).
Proof.
  intros HB HM. pose proof (prob_one (convLaw F base) (fun v => (v <? m)%Z)) as G0. cbv beta in G0. rewrite G0. by apply law_below.
Qed.
Local Opaque prob rsum.

(** ** One-sided noise *)
Definition oneSidedMode (c : loadCfg) : Prop := cLap c = false /\ cCw c = (-1)%Z /\ cOneSided c = true.
Lemma one_sided_same c v s s' : oneSidedMode c -> binLoad c (v - Z.of_N s)%Z s = binLoad c (v - Z.of_N s')%Z s'.
Proof.
  intros (H1 & H2 & H3). unfold binLoad. rewrite H1, H2, H3. change (-1 =? -1)%Z with true. cbn [negb].
  replace (Z.of_N s + (v - Z.of_N s))%Z with v by lia. replace (Z.of_N s' + (v - Z.of_N s'))%Z with v by lia. done.
Qed.
Theorem one_sided_more eps c pre s post E : 0 < eps -> oneSidedMode c ->
  loadsProb (expCdf eps) 0 c (pre ++ (s + 1)%N :: post) E <= exp eps * loadsProb (expCdf eps) 0 c (pre ++ s :: post) E.
Proof.
  intros He HC. unfold loadsProb. rewrite !map_app. cbn [map]. pose proof (fun b => ex_law eps b He) as HL.
  set (P := prob _ (loadsIn c (pre ++ s :: post) E)).
  replace (exp eps * P) with (exp eps * P + prob [convLaw (expCdf eps) (sizeR (s + 1) + 0)] (fun vs => match vs with v :: _ => false | [] => false end)).
  - apply (prob_dp _ (fun _ => false)).
    + left. apply exp_pos.
    + by apply sizes_laws.
    + apply HL.
    + apply HL.
    + by apply sizes_laws.
    + intros v _. unfold convLaw. rewrite sizeR_succ, !Rplus_0_r. pose proof (conv_lt v).
      replace (convHi v - (sizeR s + 1)) with (convHi v - sizeR s - 1) by ring. replace (convLo v - (sizeR s + 1)) with (convLo v - sizeR s - 1) by ring. apply ex_right; [done|lra].
    + intros vs v ws. rewrite !map_length. intros Lv Lw HE _. revert HE. apply loadsIn_one; [done..|]. intros l. by rewrite (one_sided_same c v (s + 1) s HC).
  - rewrite prob_never. lra.
Qed.
Theorem one_sided_less eps c pre s post E : 0 < eps -> oneSidedMode c ->
  loadsProb (expCdf eps) 0 c (pre ++ s :: post) E <= loadsProb (expCdf eps) 0 c (pre ++ (s + 1)%N :: post) E + (1 - exp (- eps)).
Proof.
  intros He HC. unfold loadsProb. rewrite !map_app. cbn [map]. pose proof (fun b => ex_law eps b He) as HL.
  set (P := prob _ (loadsIn c (pre ++ (s + 1)%N :: post) E)).
  eapply Rle_trans; [apply (prob_dp 1 (fun v => (v <? Z.of_N s + 1)%Z) _ _ (convLaw (expCdf eps) (sizeR (s + 1) + 0)) _ _ (loadsIn c (pre ++ (s + 1)%N :: post) E))|].
  - lra.
  - by apply sizes_laws.
  - apply HL.
  - apply HL.
  - by apply sizes_laws.
  - intros v Hv. destruct (Z.ltb_spec v (Z.of_N s + 1)) as [|Hv']; [done|]. clear Hv. rewrite Rmult_1_l. unfold convLaw. rewrite sizeR_succ, !Rplus_0_r. pose proof (conv_lt v).
    assert (sizeR s + 1 <= convLo v). { unfold convLo. destruct (Z.ltb_spec 0 v); [|lia]. unfold sizeR. rewrite <- plus_IZR. by apply IZR_le. }
    pose proof (ex_left eps He (convLo v - (sizeR s + 1)) (convHi v - (sizeR s + 1)) ltac:(lra) ltac:(lra)) as G.
    replace (convHi v - (sizeR s + 1) + 1) with (convHi v - sizeR s) in G by ring. replace (convLo v - (sizeR s + 1) + 1) with (convLo v - sizeR s) in G by ring. exact G.
  - intros vs v ws. rewrite !map_length. intros Lv Lw HE _. revert HE. apply loadsIn_one; [done..|]. intros l. by rewrite (one_sided_same c v s (s + 1) HC).
  - fold P. pose proof (prob_below (expCdf eps) (sizeR s + 0) (Z.of_N s + 1) (ex_bound eps He) (ex_le eps He)) as G. set (Q := prob [_] _) in *. clearbody P Q.
    replace (convLo (Z.of_N s + 1) - (sizeR s + 0)) with 1 in G.
    + rewrite (ex_pos eps 1) in G by lra. rewrite Rmult_1_r in G. lra.
    + unfold convLo, sizeR. destruct (Z.ltb_spec 0 (Z.of_N s + 1)); [|lia]. rewrite plus_IZR. lra.
Qed.

(** ** Loads that one size can have and the next cannot *)
Definition justLoad (l : N) : list N -> bool := fun ls => bool_decide (ls = [l]).
Definition gives (c : loadCfg) (s l : N) (v : Z) : bool := match binLoad c (v - Z.of_N s)%Z s with Done l' => (l' =? l)%N | _ => false end.
Lemma gives_iff c s l v : gives c s l v = true <-> binLoad c (v - Z.of_N s)%Z s = Done l.
Proof. unfold gives. destruct (binLoad _ _ _) as [x| | |]; split; try done; [rewrite N.eqb_eq; by intros ->|intros [= ->]; apply N.eqb_refl]. Qed.
Lemma prob_loads_one F off c s l : loadsProb F off c [s] (justLoad l) = rsum ints (fun v => if gives c s l v then convLaw F (sizeR s + off) v else 0).
Proof.
  unfold loadsProb. cbn [map]. rewrite (prob_ext _ _ (fun vs => match vs with v :: _ => gives c s l v | [] => false end)).
  - apply (prob_one _ (gives c s l)).
  - intros [|v [|w vs]] L; cbn in L; try lia. apply eq_bool_prop_intro. rewrite !Is_true_true, gives_iff, loadsIn_iff by done. unfold justLoad. split.
    + intros (ls & (Ll & G) & HE). rewrite bool_decide_eq_true in HE. subst. by apply (G 0%nat s v l).
    + intros G. exists [l]. rewrite bool_decide_eq_true. split; [|done]. split; [done|]. intros i t u k Ht Hu Hk. destruct i; [|done]. by simplify_eq/=.
Qed.
Lemma separated F off c s v : (forall x y, x < y -> F x < F y) \/ F (convLo v - (sizeR s + off)) < F (convHi v - (sizeR s + off)) -> (forall base w, 0 <= convLaw F base w) -> (- 2 ^ 64 <= v < 2 ^ 64)%Z ->
  binLoad c (v - Z.of_N s)%Z s = Done s -> (forall w, convLaw F (sizeR (s + 1) + off) w <> 0 -> binLoad c (w - Z.of_N (s + 1))%Z (s + 1) <> Done s) ->
  0 < loadsProb F off c [s] (justLoad s) /\ loadsProb F off c [(s + 1)%N] (justLoad s) = 0.
Proof.
  intros HF HP Hv H1 H2. rewrite !prob_loads_one. split.
  - eapply Rlt_le_trans; [|apply (rsum_one _ _ v)].
    + cbv beta. rewrite (proj2 (gives_iff c s s v) H1). unfold convLaw. destruct HF as [HF|HF]; [|lra]. pose proof (conv_lt v). pose proof (HF (convLo v - (sizeR s + off)) (convHi v - (sizeR s + off)) ltac:(lra)). lra.
    + by apply elem_ints.
    + intros w _. destruct (gives c s s w); [apply HP|lra].
  - apply rsum_zero. intros w _. destruct (gives c (s + 1) s w) eqn:E; [|done]. apply gives_iff in E. destruct (Req_dec (convLaw F (sizeR (s + 1) + off) w) 0) as [|Hw]; [done|]. by destruct (H2 w Hw).
Qed.
Theorem table_separated eps off c s t0 : 0 < eps -> cLap c = false -> cCw c = (-1)%Z -> cOneSided c = false -> (- 2 ^ 31 <= cStart c)%Z -> head (cTable c) = Some t0 -> (t0 mod 256 <= s)%N -> (s <= 255)%N ->
  0 < loadsProb (lapCdf eps) off c [s] (justLoad s) /\ loadsProb (lapCdf eps) off c [(s + 1)%N] (justLoad s) = 0.
Proof.
  intros He H1 H2 H3 Hst Ht Ht0 Hs. apply (separated _ _ _ _ (- 2 ^ 31)).
  - left. by apply lap_incr.
  - intros b w. apply (lap_law eps b He).
  - lia.
  - unfold binLoad. rewrite H1, H2, H3. change (-1 =? -1)%Z with true. cbn [negb]. replace (Z.of_N s + (- 2 ^ 31 - Z.of_N s))%Z with (- 2 ^ 31)%Z by lia.
    destruct (N.ltb_spec 255 s); [lia|]. destruct (Z.ltb_spec (- 2 ^ 31) (- 2 ^ 31)); [lia|]. destruct (Z.leb_spec (2 ^ 31) (- 2 ^ 31)); [lia|]. cbn [orb].
    destruct (cTable c) as [|t0' tab] eqn:ET; [done|]. injection Ht as ->. cbn [cutTable]. unfold lookupAt.
    set (tab' := t0 :: cutTail (cMax c) tab). assert (1 <= length tab')%nat by (cbn; lia).
    replace (Z.to_nat _) with 0%nat by lia. cbn. f_equal. lia.
  - intros w _ E. apply (table_bounds c _ _ _ H1 H2 H3) in E. lia.
Qed.
Theorem lap_separated eps off c s : 0 < eps -> cLap c = true -> (s <= cMax c)%N -> (s <= 255)%N -> (cMax c <= 255)%N ->
  0 < loadsProb (lapCdf eps) off c [s] (justLoad s) /\ loadsProb (lapCdf eps) off c [(s + 1)%N] (justLoad s) = 0.
Proof.
  intros He H1 Hs Hs2 Hm. apply (separated _ _ _ _ (Z.of_N s)).
  - left. by apply lap_incr.
  - intros b w. apply (lap_law eps b He).
  - lia.
  - unfold binLoad. rewrite H1. replace (Z.of_N s + (Z.of_N s - Z.of_N s))%Z with (Z.of_N s) by lia.
    destruct (Z.ltb_spec (Z.of_N s) 0); [lia|]. destruct (Z.leb_spec (2 ^ 64) (Z.of_N s)); [lia|]. cbn [orb]. rewrite N2Z.id, N.min_r, N.mod_small by lia.
    by rewrite N.ltb_irrefl.
  - intros w _ E. apply (lap_bounds c _ _ _ H1) in E. lia.
Qed.
Theorem one_sided_separated eps c s : 0 < eps -> oneSidedMode c -> (s < cBinCap c)%N -> (cBinCap c <= 255)%N ->
  0 < loadsProb (expCdf eps) 0 c [s] (justLoad s) /\ loadsProb (expCdf eps) 0 c [(s + 1)%N] (justLoad s) = 0.
Proof.
  intros He (H1 & H2 & H3) Hs Hm. apply (separated _ _ _ _ (Z.of_N s)).
  - right. unfold convLo, convHi, sizeR. rewrite Rplus_0_r. destruct (Z.ltb_spec (Z.of_N s) 0); [lia|].
    replace (IZR (Z.of_N s) + 1 - IZR (Z.of_N s)) with 1 by ring. rewrite (ex_pos eps 1) by lra.
    rewrite ex_neg by (destruct (0 <? Z.of_N s)%Z; lra). rewrite Rmult_1_r. assert (exp (- eps) < 1); [|lra]. rewrite <- exp_0. apply exp_increasing. lra.
  - intros b w. apply (ex_law eps b He).
  - lia.
  - unfold binLoad. rewrite H1, H2, H3. change (-1 =? -1)%Z with true. cbn [negb]. replace (Z.of_N s + (Z.of_N s - Z.of_N s))%Z with (Z.of_N s) by lia.
    destruct (Z.ltb_spec (Z.of_N s) 0); [lia|]. destruct (Z.leb_spec (2 ^ 64) (Z.of_N s)); [lia|]. cbn [orb]. rewrite N2Z.id, N.min_l by lia. by destruct (N.ltb_spec 255 s); [lia|].
  - intros w Hw E. destruct (decide (Z.of_N (s + 1) <= w)%Z) as [Hw'|Hw'].
    + apply (oneSided_bounds c _ _ _ H1 H2 H3) in E; lia.
    + apply Hw. unfold convLaw. rewrite !ex_neg; [lra|..]; pose proof (conv_lt w); assert (convHi w <= sizeR (s + 1)); try lra.
      all: unfold convHi, sizeR; destruct (Z.ltb_spec w 0); rewrite <- ?plus_IZR; apply IZR_le; lia.
Qed.
