(** The expected number of exposed bins for the tables for 256 items. *)
From Coq Require Import Reals Lra Psatz.
From Verif Require Import Base Grr18_Model GrrNoise_Model GrrNoise_Spec GrrNoise_Proofs GrrNoise_Proofs2 GrrNoise_Proofs3 GrrNoise_Proofs4 GrrNoise_Proofs5 GrrTable_Model GrrTable_Spec GrrTable_Proofs GrrTable_Proofs2.
Local Open Scope N_scope.
Local Opaque ints SC.

Definition convZ (v : Z) : Z := if (0 <? v)%Z then v else (v - 1)%Z.
Lemma convZ_lo v : convLo v = IZR (convZ v).
Proof. unfold convLo, convZ. destruct (0 <? v)%Z; [done|]. by rewrite minus_IZR. Qed.
(** The end of the values with an entry below [k], relative to [k]. *)
Definition gapZ (st : Z) (l : list N) (k : nat) : Z := (convZ (st + Z.of_nat (lowCount (N.of_nat k) l)) - Z.of_nat k)%Z.
Definition qHi (pws : list N) (st : Z) (l : list N) (k : nat) : N :=
  let c := lowCount (N.of_nat k) l in
  if (c =? 0)%nat then 0 else if (c =? length l)%nat then SC
  else let d := gapZ st l k in
       if (d <=? 0)%Z then match pws !! Z.to_nat (- d) with Some p => p / 2 + 1 | None => SC end else SC.
Definition qLo (pws : list N) (st : Z) (l : list N) (k : nat) : N :=
  let c := lowCount (N.of_nat k) l in
  if (c =? 0)%nat then 0 else if (c =? length l)%nat then SC - 2
  else let d := gapZ st l k in
       if (d <=? 0)%Z then match pws !! Z.to_nat (- d) with Some p => p / 2 - 1 | None => 0 end else 0.
Lemma short_all mx cap st l k v : l <> [] -> (- 2 ^ 31 <= v)%Z -> (v < 2 ^ 31)%Z -> lowCount k l = length l -> isShort (mkLoadCfg false (-1) false mx cap st l) k v = true.
Proof.
  intros Hl H1 H2 HC. destruct (binLoad_table mx cap st l v Hl ltac:(lia)) as (x & Hx & Bx). specialize (Bx 0 ltac:(lia)). replace (v - Z.of_N 0)%Z with v in Bx by lia.
  unfold isShort. rewrite Bx. destruct (cut_prefix mx l Hl) as (j & Hj & E). rewrite E, take_length in Hx. rewrite lookup_take in Hx by lia.
  assert (x < k) as Hk by (eapply lowCount_lt; [|exact Hx]; lia). pose proof (N.mod_le x 256 ltac:(lia)). apply N.ltb_lt. lia.
Qed.
Definition ev (c : loadCfg) (k : N) : list Z -> bool := fun vs => match vs with v :: _ => isShort c k v | [] => false end.
Lemma shortProb_ev F c s k : shortProb F 0 c s k = prob [convLaw F (sizeR s + 0)] (ev c k).
Proof. reflexivity. Qed.
Lemma short_bound eps c s k : (0 < eps)%R -> (0 <= shortProb (lapCdf eps) 0 c s k <= 1)%R.
Proof. intros He. rewrite shortProb_ev. apply prob_bound. apply Forall_cons_2; [by apply lap_law|by apply Forall_nil_2]. Qed.
Lemma lap_at p d : (d <= 0)%Z -> lapCdf (epsR p) (IZR d) = (exp (- epsR p) ^ Z.to_nat (- d) / 2)%R.
Proof.
  intros Hd. rewrite lap_neg by (apply IZR_le in Hd; lra). f_equal. rewrite <- Rpower_pow by apply exp_pos. unfold Rpower. rewrite ln_exp. f_equal.
  rewrite INR_IZR_INZ, Z2Nat.id, opp_IZR by lia. ring.
Qed.
Lemma half_lo a : (fx (a / 2) <= fx a / 2)%R.
Proof. pose proof (fx_scale_lo a 1 2 ltac:(lia)) as H. rewrite N.mul_1_r in H. change (sizeR 1) with 1%R in H. change (sizeR 2) with 2%R in H. lra. Qed.
Lemma half_hi a : (fx a / 2 <= fx (a / 2 + 1))%R.
Proof. pose proof (fx_scale_hi a 1 2 ltac:(lia)) as H. rewrite N.mul_1_r in H. change (sizeR 1) with 1%R in H. change (sizeR 2) with 2%R in H. lra. Qed.
Lemma q_hi p mx cap st l k len : 0 < p -> l <> [] -> sortedB l = true -> Forall (fun x => x <= mx /\ x <= 255) l ->
  (shortProb (lapCdf (epsR p)) 0 (mkLoadCfg false (-1) false mx cap st l) (N.of_nat k) (N.of_nat k) <= fx (qHi (powList mulHi (expHi p) SC len) st l k))%R.
Proof.
  intros Hp Hl HS HF. assert (0 < epsR p)%R as He by (unfold epsR; pose proof (sizeR_lt 0 p Hp) as H; rewrite sizeR_0 in H; lra).
  set (c := mkLoadCfg false (-1) false mx cap st l). pose proof (short_bound (epsR p) c (N.of_nat k) (N.of_nat k) He) as [_ H1].
  unfold qHi. destruct (Nat.eqb_spec (lowCount (N.of_nat k) l) 0) as [E|E].
  - rewrite shortProb_ev. unfold ev. rewrite (prob_ext _ _ (fun vs => match vs with v :: _ => false | [] => false end)).
    + rewrite prob_never. apply fx_nonneg.
    + intros [|v vs] _; [done|]. destruct (isShort c (N.of_nat k) v) eqn:EE; [|done]. apply short_high in EE as [EE _]; [lia|done..].
  - destruct (Nat.eqb_spec (lowCount (N.of_nat k) l) (length l)) as [E2|E2]; [by rewrite fx_SC|].
    destruct (Z.leb_spec (gapZ st l k) 0) as [Hd|Hd]; [|by rewrite fx_SC].
    destruct (powList mulHi (expHi p) SC len !! Z.to_nat (- gapZ st l k)) as [q|] eqn:EQ; [|by rewrite fx_SC].
    assert (Z.to_nat (- gapZ st l k) < len)%nat as Hlen.
    { apply lookup_lt_Some in EQ. assert (forall f c a j, length (powList f c a j) = j) as HL by (intros f cc a j; revert a; induction j; intros a; cbn; [done|by f_equal]). by rewrite HL in EQ. }
    pose proof (powList_lookup mulHi (expHi p) 0 _ len Hlen) as HP. change (powers mulHi (expHi p) 0) with SC in HP. rewrite HP in EQ. cbn [Nat.add] in EQ. simplify_eq.
    eapply Rle_trans; [|apply half_hi]. eapply Rle_trans; [|apply Rmult_le_compat_r; [lra|apply (powers_hi (expHi p) _ _ (exp_hi p))]].
    change (exp (- epsR p) ^ Z.to_nat (- gapZ st l k) * / 2)%R with (exp (- epsR p) ^ Z.to_nat (- gapZ st l k) / 2)%R. rewrite <- (lap_at p _ Hd).
    rewrite shortProb_ev. eapply Rle_trans; [apply (prob_mono _ _ (fun vs => match vs with v :: _ => (v <? st + Z.of_nat (lowCount (N.of_nat k) l))%Z | [] => false end))|].
    + apply Forall_cons_2; [by apply lap_law|by apply Forall_nil_2].
    + intros [|v vs] _; [done|]. cbn [ev]. intros EE. apply short_high in EE as [_ [EE|EE]]; [by apply Z.ltb_lt|done..].
    + eapply Rle_trans; [apply prob_below; [by apply lap_bound|by apply lap_le]|]. apply lap_le; [done|]. rewrite convZ_lo. unfold gapZ, sizeR. rewrite minus_IZR, nat_N_Z. lra.
Qed.
Lemma far_tail p k : 1 <= p -> (lapCdf (epsR p) (convLo (- 2 ^ 31) - (sizeR (N.of_nat k) + 0)) <= fx 1)%R.
Proof.
  intros Hp. assert (1 <= sizeR p)%R as Hp' by (apply (sizeR_le 1 p Hp)). pose proof (sizeR_nonneg (N.of_nat k)) as Hk. rewrite convZ_lo. change (convZ (- 2 ^ 31)) with (- 2147483649)%Z.
  rewrite lap_neg by lra. eapply Rle_trans; [apply (Rmult_le_compat_r (/ 2) _ (exp (- INR 100))); [lra|]|].
  - apply exp_le. rewrite INR_IZR_INZ. change (Z.of_nat 100) with 100%Z. unfold epsR. nra.
  - pose proof (exp_pow 100) as H. assert (/ 2 ^ 100 <= fx 1)%R; [|pose proof (exp_pos (- INR 100)); lra].
    Local Transparent SC. unfold fx, sizeR, SC. change (Z.of_N (2 ^ 80)) with (2 ^ Z.of_nat 80)%Z. rewrite <- pow_IZR.
    change (IZR (Z.of_N 1)) with 1%R. unfold Rdiv. rewrite Rmult_1_l. apply Rinv_le_contravar; [apply pow_lt; lra|]. apply Rle_pow; [lra|lia].
Qed.
Local Opaque SC.
Lemma near_tail p k : 1 <= p -> (k <= 2 ^ 20)%Z -> (1 - fx 1 <= lapCdf (epsR p) (convLo (2 ^ 31) - (IZR k + 0)))%R.
Proof.
  intros Hp Hk. apply IZR_le in Hk. change (2 ^ 20)%Z with 1048576%Z in Hk. rewrite convZ_lo. change (convZ (2 ^ 31)) with 2147483648%Z.
  pose proof (far_tail p 0 Hp) as H. rewrite convZ_lo in H. change (convZ (- 2 ^ 31)) with (- 2147483649)%Z in H. change (sizeR (N.of_nat 0)) with 0%R in H.
  assert (1 <= sizeR p)%R as Hp' by (apply (sizeR_le 1 p Hp)). assert (0 < epsR p)%R as He by (unfold epsR; lra).
  replace (2147483648 - (IZR k + 0))%R with (- (IZR k - 2147483648))%R by lra. rewrite lap_sym by done. enough (lapCdf (epsR p) (IZR k - 2147483648) <= fx 1)%R by lra.
  rewrite lap_neg by lra. eapply Rle_trans; [apply (Rmult_le_compat_r (/ 2) _ (exp (- INR 100))); [lra|]|].
  - apply exp_le. rewrite INR_IZR_INZ. change (Z.of_nat 100) with 100%Z. unfold epsR. nra.
  - pose proof (exp_pow 100) as H1. assert (/ 2 ^ 100 <= fx 1)%R; [|pose proof (exp_pos (- INR 100)); lra].
    Local Transparent SC. unfold fx, sizeR, SC. change (Z.of_N (2 ^ 80)) with (2 ^ Z.of_nat 80)%Z. rewrite <- pow_IZR.
    change (IZR (Z.of_N 1)) with 1%R. unfold Rdiv. rewrite Rmult_1_l. apply Rinv_le_contravar; [apply pow_lt; lra|]. apply Rle_pow; [lra|lia].
Qed.
Local Opaque SC.
Lemma q_lo p mx cap st l k len : 1 <= p <= 4000 -> l <> [] -> (-100 <= st <= 100)%Z -> (length l <= 100)%nat -> (k < 2 ^ 10)%nat ->
  (fx (qLo (powList mulLo (expLo p) SC len) st l k) <= shortProb (lapCdf (epsR p)) 0 (mkLoadCfg false (-1) false mx cap st l) (N.of_nat k) (N.of_nat k))%R.
Proof.
  intros Hp Hl Hst HL Hk. assert (0 < epsR p)%R as He by (unfold epsR; pose proof (sizeR_lt 0 p ltac:(lia)) as H; rewrite sizeR_0 in H; lra).
  set (c := mkLoadCfg false (-1) false mx cap st l). pose proof (short_bound (epsR p) c (N.of_nat k) (N.of_nat k) He) as [H1 _].
  assert (fx 0 = 0%R) as F0 by (unfold fx; rewrite sizeR_0; unfold Rdiv; lra).
  unfold qLo. destruct (Nat.eqb_spec (lowCount (N.of_nat k) l) 0) as [E|E]; [by rewrite F0|].
  destruct (Nat.eqb_spec (lowCount (N.of_nat k) l) (length l)) as [E2|E2].
  { pose proof (far_tail p k ltac:(lia)) as HT. assert (Z.of_nat k <= 2 ^ 20)%Z as Hk' by (change (2 ^ 10)%nat with 1024%nat in Hk; lia).
    pose proof (near_tail p (Z.of_nat k) ltac:(lia) Hk') as HT'. assert (fx (SC - 2) = 1 - fx 1 - fx 1)%R as ->.
    { pose proof (fx_add (SC - 2) 2) as HA. assert (2 <= SC) as HS2 by (apply N.leb_le; vm_compute; reflexivity). replace (SC - 2 + 2) with SC in HA by lia.
      change 2 with (1 + 1) in HA at 2. rewrite fx_add, fx_SC in HA. lra. }
    assert (IZR (Z.of_nat k) = sizeR (N.of_nat k)) as EK by (unfold sizeR; by rewrite nat_N_Z). rewrite EK in HT'.
    rewrite shortProb_ev. unfold ev. rewrite prob_one. eapply Rle_trans; [|apply (rsum_range _ (- 2 ^ 31) (2 ^ 32))].
    - rewrite (rsum_ext _ _ (convLaw (lapCdf (epsR p)) (sizeR (N.of_nat k) + 0))).
      + rewrite law_sum by lia. replace (- 2 ^ 31 + 2 ^ 32)%Z with (2 ^ 31)%Z by lia. lra.
      + intros v Hv. apply elem_of_seqZ in Hv. unfold c. rewrite short_all; [done|done|lia|lia|done].
    - intros v. destruct (isShort c (N.of_nat k) v); [|lra]. destruct (lap_law (epsR p) (sizeR (N.of_nat k) + 0) He) as [HH _]. apply HH.
    - lia.
    - lia.
    - lia. }
  destruct (Z.leb_spec (gapZ st l k) 0) as [Hd|Hd]; [|by rewrite F0].
  destruct (powList mulLo (expLo p) SC len !! Z.to_nat (- gapZ st l k)) as [q|] eqn:EQ; [|by rewrite F0].
  assert (Z.to_nat (- gapZ st l k) < len)%nat as Hlen.
  { apply lookup_lt_Some in EQ. assert (forall f c a j, length (powList f c a j) = j) as HLL by (intros f cc a j; revert a; induction j; intros a; cbn; [done|by f_equal]). by rewrite HLL in EQ. }
  pose proof (powList_lookup mulLo (expLo p) 0 _ len Hlen) as HP. change (powers mulLo (expLo p) 0) with SC in HP. rewrite HP in EQ. cbn [Nat.add] in EQ. simplify_eq.
  set (q := powers mulLo (expLo p) (Z.to_nat (- gapZ st l k))). assert (fx (q / 2 - 1) <= Rmax 0 (fx (q / 2) - fx 1))%R as Hq.
  { destruct (decide (1 <= q / 2)) as [Hq|Hq]; [|replace (q / 2 - 1) with 0 by lia; rewrite F0; apply Rmax_l].
    eapply Rle_trans; [|apply Rmax_r]. pose proof (fx_add (q / 2 - 1) 1) as HA. replace (q / 2 - 1 + 1) with (q / 2) in HA by lia. lra. }
  eapply Rle_trans; [exact Hq|]. apply Rmax_lub; [done|].
  assert (fx (q / 2) <= lapCdf (epsR p) (IZR (gapZ st l k)))%R as HQ.
  { rewrite lap_at by done. eapply Rle_trans; [apply half_lo|]. apply Rmult_le_compat_r; [lra|]. apply powers_lo, exp_lo. assert (4000 <= DEN) by (apply N.leb_le; vm_compute; reflexivity). lia. }
  pose proof (far_tail p k ltac:(lia)) as HT. set (e := (st + Z.of_nat (lowCount (N.of_nat k) l))%Z). pose proof (lowCount_le (N.of_nat k) l) as HC.
  rewrite shortProb_ev. unfold ev. rewrite prob_one.
  eapply Rle_trans; [|apply (rsum_range _ (- 2 ^ 31) (e + 2 ^ 31))].
  - rewrite (rsum_ext _ _ (convLaw (lapCdf (epsR p)) (sizeR (N.of_nat k) + 0))).
    + rewrite law_sum by lia. replace (- 2 ^ 31 + (e + 2 ^ 31))%Z with e by lia.
      assert (convLo e - (sizeR (N.of_nat k) + 0) = IZR (gapZ st l k))%R as -> by (rewrite convZ_lo; unfold gapZ, sizeR; fold e; rewrite minus_IZR, nat_N_Z; lra). lra.
    + intros v Hv. apply elem_of_seqZ in Hv. unfold c. rewrite short_low; [done|done|lia|lia|lia|lia].
  - intros v. destruct (isShort c (N.of_nat k) v); [|lra]. destruct (lap_law (epsR p) (sizeR (N.of_nat k) + 0) He) as [HH _]. apply HH.
  - lia.
  - lia.
  - lia.
Qed.
(** ** The bounds *)
Definition LEN : nat := 64.
(** [2^j] items. *)
Definition hiBound (j : nat) (m p : N) (st : Z) (l : list N) : N :=
  let pws := powList mulHi (expHi p) SC LEN in
  m * mulHi (squares mulHi j (SC * (m - 1) / m + 1)) (nestHi (qHi pws st l) (2 ^ N.of_nat j) m 0 64).
Definition loBound (j : nat) (m p : N) (st : Z) (l : list N) : N :=
  let pws := powList mulLo (expLo p) SC LEN in
  m * mulLo (squares mulLo j (SC * (m - 1) / m)) (nestLo (qLo pws st l) (2 ^ N.of_nat j) m 0 64).
Lemma items_nat j : N.to_nat (2 ^ N.of_nat j) = (2 ^ j)%nat.
Proof. rewrite N2Nat.inj_pow, Nat2N.id. done. Qed.
Lemma exposed_hi j m p mx cap st l : 64 <= 2 ^ N.of_nat j -> 2 <= m -> 2 * (2 ^ N.of_nat j - 64) <= 65 * (m - 1) -> 0 < p -> l <> [] -> sortedB l = true -> Forall (fun x => x <= mx /\ x <= 255) l ->
  (exposedBins (2 ^ N.of_nat j) m p (mkLoadCfg false (-1) false mx cap st l) <= fx (hiBound j m p st l))%R.
Proof.
  intros Hj Hm Hm2 Hp Hl HS HF. assert (0 < epsR p)%R as He by (unfold epsR; pose proof (sizeR_lt 0 p Hp) as H; rewrite sizeR_0 in H; lra).
  unfold exposedBins, hiBound. rewrite law_nested by done. set (Q := fun k : nat => shortProb _ _ _ _ _). assert (forall i, 0 <= Q i <= 1)%R as HQ by (intros i; exact (short_bound _ _ _ _ He)).
  replace (S (N.to_nat (2 ^ N.of_nat j))) with (64 + (N.to_nat (2 ^ N.of_nat j) - 63))%nat by lia. rewrite law_zero by done. rewrite items_nat.
  assert (forall a b : N, fx (a * b) = sizeR a * fx b)%R as -> by (intros a b; unfold fx; rewrite sizeR_mul; unfold Rdiv; ring).
  apply Rmult_le_compat_l; [apply sizeR_nonneg|]. apply mul_hi.
  - apply squares_hi. pose proof (sizeR_lt 0 m ltac:(lia)) as H4. rewrite sizeR_0 in H4. split; [apply Rmult_le_pos; [apply sizeR_nonneg|apply Rlt_le, Rinv_0_lt_compat; done]|].
    pose proof (fx_scale_hi SC (m - 1) m ltac:(lia)) as H. by rewrite fx_SC, Rmult_1_l in H.
  - split; [exact (nested_nonneg Q _ m 0 _ (fun i => proj1 (HQ i)))|]. apply nest_hi; [exact HQ| |exact Hm|exact Hm2].
    intros i _. exact (q_hi p mx cap st l i LEN Hp Hl HS HF).
Qed.
Lemma exposed_lo j m p mx cap st l : 64 <= 2 ^ N.of_nat j -> 2 <= m -> 1 <= p <= 4000 -> l <> [] -> (-100 <= st <= 100)%Z -> (length l <= 100)%nat ->
  (fx (loBound j m p st l) <= exposedBins (2 ^ N.of_nat j) m p (mkLoadCfg false (-1) false mx cap st l))%R.
Proof.
  intros Hj Hm Hp Hl Hst HL. assert (0 < epsR p)%R as He by (unfold epsR; pose proof (sizeR_lt 0 p ltac:(lia)) as H; rewrite sizeR_0 in H; lra).
  unfold exposedBins, loBound. rewrite law_nested by done. set (Q := fun k : nat => shortProb _ _ _ _ _). assert (forall i, 0 <= Q i <= 1)%R as HQ by (intros i; exact (short_bound _ _ _ _ He)).
  replace (S (N.to_nat (2 ^ N.of_nat j))) with (64 + (N.to_nat (2 ^ N.of_nat j) - 63))%nat by lia. rewrite law_zero by done. rewrite items_nat.
  assert (forall a b : N, fx (a * b) = sizeR a * fx b)%R as -> by (intros a b; unfold fx; rewrite sizeR_mul; unfold Rdiv; ring).
  apply Rmult_le_compat_l; [apply sizeR_nonneg|]. apply mul_lo.
  - apply squares_lo. pose proof (fx_scale_lo SC (m - 1) m ltac:(lia)) as H. by rewrite fx_SC, Rmult_1_l in H.
  - apply nest_lo; [exact (fun i => proj1 (HQ i))| |exact Hm]. intros i Hi. apply (q_lo p mx cap st l i LEN Hp Hl Hst HL). change (2 ^ 10)%nat with 1024%nat. lia.
Qed.
