(** The buffer of the two-sided noise, the number of masks, and the tables of GRR18. *)
From Coq Require Import Reals Lra Psatz.
From Verif Require Import Base Grr18_Model Grr18_Proofs GrrNoise_Model GrrNoise_Spec GrrNoise_Proofs GrrNoise_Proofs2 GrrNoise_Proofs3.
Local Open Scope R_scope.
Local Opaque ints prob rsum.

Lemma lap_exp eps x : lapCdf eps x <= exp (eps * x) / 2.
Proof.
  destruct (Rle_or_lt x 0); [rewrite lap_neg by done; lra|]. rewrite lap_pos by lra. pose proof (exp_pm (eps * x)). pose proof (exp_pos (eps * x)). pose proof (exp_pos (- (eps * x))).
  set (u := exp (eps * x)) in *. set (w := exp (- (eps * x))) in *. assert (0 <= (u - w) * (u - w)) by (apply Rle_0_sqr).
  assert (2 <= u + w); [|lra]. nra.
Qed.
Lemma exp_buffer eps m : 0 < eps -> (1 <= m)%N -> exp (- (eps * lapBuffer eps m)) = / (2 ^ 39 * sizeR m).
Proof.
  intros He Hm. assert (0 < IZR (Z.of_N m)) by (apply (IZR_lt 0); lia). pose proof ln_lt_2. assert (0 < ln 2) by lra.
  replace (- (eps * lapBuffer eps m)) with (- (INR 39 * ln 2 + ln (IZR (Z.of_N m)))).
  - rewrite exp_Ropp, exp_plus, (exp_ln (IZR (Z.of_N m))) by done. f_equal. f_equal. rewrite <- ln_pow by lra. rewrite exp_ln; [done|]. apply pow_lt. lra.
  - unfold lapBuffer. replace (INR 39) with 39 by (rewrite INR_IZR_INZ; done). field. lra.
Qed.

(** ** Short loads with a buffer *)
Lemma lap_value c v l : cLap c = true -> (cMax c <= 255)%N -> binLoad c v 0 = Done l -> (0 <= v < 2 ^ 64)%Z /\ l = N.min (cMax c) (Z.to_N v).
Proof.
  intros HC HM. unfold binLoad. rewrite HC. replace (Z.of_N 0 + v)%Z with v by lia. destruct (Z.ltb_spec v 0); [done|]. destruct (Z.leb_spec (2 ^ 64) v); [done|]. cbn [orb].
  rewrite N.mod_small by lia. destruct (N.ltb_spec (N.min (cMax c) (Z.to_N v)) 0); [done|]. intros [= <-]. split; [lia|done].
Qed.
Lemma lap_short eps off c s need : 0 < eps -> cLap c = true -> (need <= cMax c)%N -> (cMax c <= 255)%N -> (1 <= need <= s + 1)%N ->
  shortProb (lapCdf eps) off c s need <= exp (eps * (1 - off)) / 2.
Proof.
  intros He HC Hn HM Hs. unfold shortProb. eapply Rle_trans; [apply (prob_mono _ _ (fun vs => match vs with v :: _ => (v <? Z.of_N need)%Z | [] => false end))|].
  - constructor; [by apply lap_law|constructor].
  - intros [|v vs] _ H; [done|]. destruct (binLoad c v 0) as [l| | |] eqn:E; try done. apply (lap_value c v l HC HM) in E as [Hv ->]. apply N.ltb_lt in H. apply Z.ltb_lt. lia.
  - pose proof (prob_below (lapCdf eps) (sizeR s + off) (Z.of_N need) (lap_bound eps He) (lap_le eps He)) as G. eapply Rle_trans; [exact G|].
    eapply Rle_trans; [apply (lap_le eps He _ (1 - off))|apply lap_exp]. unfold convLo, sizeR. destruct (Z.ltb_spec 0 (Z.of_N need)); [|lia].
    assert (IZR (Z.of_N need) <= IZR (Z.of_N s) + 1); [|lra]. rewrite <- plus_IZR. apply IZR_le. lia.
Qed.
Theorem buffer_dp eps m c pre s mid t post E : 0 < eps -> (1 <= m)%N -> cLap c = true -> (cMax c <= 255)%N -> (s + 1 <= cMax c)%N -> (t + 1 <= cMax c)%N ->
  loadsProb (lapCdf eps) (lapOffset eps m) c (pre ++ (s + 1)%N :: mid ++ t :: post) E <=
  exp (2 * eps) * loadsProb (lapCdf eps) (lapOffset eps m) c (pre ++ s :: mid ++ (t + 1)%N :: post) E + (1 + exp eps) * exp (eps / 10000) / (2 ^ 40 * sizeR m).
Proof.
  intros He Hm HC HM Hs Ht. assert (0 < sizeR m) by (apply (IZR_lt 0); lia).
  pose proof (move_dp eps (lapOffset eps m) c pre s mid t post E He ltac:(by left)) as G.
  pose proof (lap_short eps (lapOffset eps m) c (s + 1) (s + 1) He HC Hs HM ltac:(lia)) as G1.
  pose proof (lap_short eps (lapOffset eps m) c t (t + 1) He HC Ht HM ltac:(lia)) as G2.
  assert (exp (eps * (1 - lapOffset eps m)) / 2 = exp (eps / 10000) / (2 ^ 40 * sizeR m)) as E0.
  { replace (eps * (1 - lapOffset eps m)) with (eps / 10000 + - (eps * lapBuffer eps m)) by (unfold lapOffset; field).
    rewrite exp_plus, exp_buffer by done. rewrite <- (tech_pow_Rmult 2 39). field; repeat split; try lra; apply pow_nonzero; lra. }
  rewrite E0 in G1, G2. pose proof (exp_pos eps). set (D := exp (eps / 10000) / (2 ^ 40 * sizeR m)) in *.
  replace ((1 + exp eps) * exp (eps / 10000) / (2 ^ 40 * sizeR m)) with (D + exp eps * D) by (unfold D, Rdiv; ring). nra.
Qed.

(** ** Success *)
Local Transparent prob.
Lemma step_real k eta x : 0 <= eta -> 0 < k <= 1 -> 1 - eta <= x -> k - eta <= k * x.
Proof.
  intros He Hk Hx. assert (0 <= k * (x - (1 - eta))) by (apply Rmult_le_pos; lra). assert (0 <= eta * (1 - k)) by (apply Rmult_le_pos; lra). lra.
Qed.
Lemma prob_all eta laws goods ev : 0 <= eta -> Forall isLaw laws -> Forall2 (fun law (good : Z -> bool) => 1 - eta <= rsum ints (fun v => if good v then law v else 0)) laws goods ->
  (forall vs, Forall2 (fun good v => good v = true) goods vs -> ev vs = true) -> 1 - INR (length laws) * eta <= prob laws ev.
Proof.
  intros Hn HL HG. revert ev. induction HG as [|law good laws goods Hg HG IH]; intros ev HE.
  - cbn [prob length]. rewrite (HE [] ltac:(constructor)). cbn. lra.
  - apply Forall_cons in HL as [[P S] HL]. change (length (law :: laws)) with (1 + length laws)%nat. rewrite plus_INR. change (INR 1) with 1.
    specialize (IH HL). pose proof (prob_bound (law :: laws) ev ltac:(by constructor)) as PB. set (k := 1 - INR (length laws) * eta) in *.
    replace (1 - (1 + INR (length laws)) * eta) with (k - eta) by (unfold k; ring). destruct (Rle_or_lt k 0) as [Hk|Hk]; [lra|]. cbn [prob]. eapply Rle_trans; [|apply (rsum_le _ (fun v => k * (if good v then law v else 0)))].
    + rewrite rsum_scale. assert (k <= 1) by (unfold k; pose proof (pos_INR (length laws)); nra). apply step_real; [lra..|exact Hg].
    + intros v _. cbv beta. pose proof (P v). pose proof (prob_bound laws (fun vs => ev (v :: vs)) HL). destruct (good v) eqn:EG; [|nra].
      assert (k <= prob laws (fun vs => ev (v :: vs))); [|nra]. apply IH. intros vs HV. apply HE. by constructor.
Qed.
Local Opaque prob.
Lemma lap_success c s v : cLap c = true -> (cMax c <= 255)%N -> (s <= cMax c)%N -> (Z.of_N s <= v < 2 ^ 64)%Z -> exists l, binLoad c (v - Z.of_N s)%Z s = Done l.
Proof.
  intros HC HM Hs Hv. unfold binLoad. rewrite HC. replace (Z.of_N s + (v - Z.of_N s))%Z with v by lia.
  destruct (Z.ltb_spec v 0); [lia|]. destruct (Z.leb_spec (2 ^ 64) v); [lia|]. cbn [orb]. rewrite N.mod_small by lia.
  destruct (N.ltb_spec (N.min (cMax c) (Z.to_N v)) s); [lia|eauto].
Qed.
Theorem buffer_success eps m c sizes : 0 < eps -> (1 <= m)%N -> cLap c = true -> (cMax c <= 255)%N -> Forall (fun s => s <= cMax c)%N sizes -> (N.of_nat (length sizes) <= m)%N ->
  1 - / 2 ^ 40 - sizeR m * exp (- (eps * (2 ^ 64 - 255 - lapOffset eps m))) / 2 <= loadsProb (lapCdf eps) (lapOffset eps m) c sizes (fun _ => true).
Proof.
  intros He Hm HC HM HS HL. assert (0 < sizeR m) as Pm by (apply (IZR_lt 0); lia). set (off := lapOffset eps m). set (tail := exp (- (eps * (2 ^ 64 - 255 - off))) / 2).
  assert (0 < / (2 ^ 40 * sizeR m)) as Pd. { apply Rinv_0_lt_compat, Rmult_lt_0_compat; [apply pow_lt; lra|done]. }
  assert (0 < tail) as Pt. { unfold tail. pose proof (exp_pos (- (eps * (2 ^ 64 - 255 - off)))). lra. }
  eapply Rle_trans; [|apply (prob_all (/ (2 ^ 40 * sizeR m) + tail) _ (map (fun s v => (Z.of_N s <=? v)%Z && (v <? 2 ^ 64)%Z) sizes))].
  - rewrite map_length. assert (INR (length sizes) <= sizeR m). { unfold sizeR. rewrite INR_IZR_INZ. apply IZR_le. lia. }
    assert (sizeR m * / (2 ^ 40 * sizeR m) = / 2 ^ 40). { field; repeat split; try lra; apply pow_nonzero; lra. }
    replace (sizeR m * exp (- (eps * (2 ^ 64 - 255 - off))) / 2) with (sizeR m * tail) by (unfold tail; field). pose proof (pos_INR (length sizes)). nra.
  - lra.
  - apply sizes_laws. intros. by apply lap_law.
  - apply Forall2_fmap_l, Forall2_fmap_r. apply Forall_Forall2_diag. apply Forall_forall. intros s Hs. rewrite Forall_forall in HS. specialize (HS s Hs). unfold compose.
    rewrite (rsum_ext _ _ (fun v => if (Z.of_N s <=? v)%Z then convLaw (lapCdf eps) (sizeR s + off) v else 0)).
    + rewrite (law_above_in _ _ (lap_bound eps He) (lap_le eps He)) by lia.
      assert (lapCdf eps (convLo (Z.of_N s) - (sizeR s + off)) <= / (2 ^ 40 * sizeR m)).
      { eapply Rle_trans; [apply (lap_le eps He _ (- lapBuffer eps m))|].
        - unfold off, lapOffset, convLo, sizeR. destruct (Z.ltb_spec 0 (Z.of_N s)); lra.
        - eapply Rle_trans; [apply lap_exp|]. replace (eps * - lapBuffer eps m) with (- (eps * lapBuffer eps m)) by ring. rewrite exp_buffer by done.
          right. rewrite <- (tech_pow_Rmult 2 39). field; repeat split; try lra; apply pow_nonzero; lra. }
      assert (1 - lapCdf eps (convLo (2 ^ 64) - (sizeR s + off)) <= tail); [|lra].
      rewrite <- lap_sym. eapply Rle_trans; [apply lap_exp|]. unfold tail. apply Rmult_le_compat_r; [lra|]. apply exp_le.
      replace (eps * - (convLo (2 ^ 64) - (sizeR s + off))) with (- (eps * (convLo (2 ^ 64) - (sizeR s + off)))) by ring. apply Ropp_le_contravar, Rmult_le_compat_l; [lra|].
      assert (sizeR s <= 255) by (apply (IZR_le _ 255); lia). unfold convLo. destruct (Z.ltb_spec 0 (2 ^ 64)); [|lia].
      replace (IZR (2 ^ 64)) with (2 ^ 64); [lra|]. rewrite pow_IZR. done.
    + intros v Hv. apply elem_ints in Hv. destruct (Z.leb_spec (Z.of_N s) v); [|done]. destruct (Z.ltb_spec v (2 ^ 64)); [done|lia].
  - intros vs HV. apply Forall2_fmap_l in HV. apply loadsIn_iff; [symmetry; by eapply Forall2_length|].
    assert (exists ls, Forall2 (fun (sv : N * Z) l => binLoad c (sv.2 - Z.of_N sv.1)%Z sv.1 = Done l) (zip sizes vs) ls) as [ls Hls].
    { clear HL. revert HS. induction HV as [|s v sizes vs Hsv HV IH]; intros HS; [exists []; constructor|].
      apply Forall_cons in HS as [H1 H2]. destruct (IH H2) as [ls Hls]. apply andb_true_iff in Hsv as [A%Z.leb_le B%Z.ltb_lt].
      destruct (lap_success c s v HC HM H1 ltac:(lia)) as [l El]. exists (l :: ls). by constructor. }
    exists ls. split; [|done]. pose proof (Forall2_length _ _ _ HV) as L1. pose proof (Forall2_length _ _ _ Hls) as L2. rewrite zip_with_length in L2.
    split; [lia|]. intros i s v l Hs Hv Hl. destruct (Forall2_lookup_r _ _ _ _ _ Hls Hl) as ([s' v'] & Hz & HB). apply lookup_zip_with_Some in Hz as (s2 & v2 & [= -> ->] & Hs2 & Hv2).
    rewrite Hs in Hs2. rewrite Hv in Hv2. simplify_eq. exact HB.
Qed.
