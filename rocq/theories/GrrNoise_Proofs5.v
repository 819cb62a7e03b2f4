(** The announced number of masks and the tables of GRR18. *)
From Coq Require Import Reals Lra Psatz.
From Verif Require Import Base Grr18_Model Grr18_Proofs GrrNoise_Model GrrNoise_Spec GrrNoise_Proofs GrrNoise_Proofs2 GrrNoise_Proofs3 GrrNoise_Proofs4.
Local Open Scope R_scope.
Local Opaque ints prob rsum.

(** ** Ranges *)
Lemma ints_three lo hi : (- 2 ^ 64 <= lo)%Z -> (lo <= hi)%Z -> (hi <= 2 ^ 64)%Z -> ints = seqZ (- 2 ^ 64) (lo - - 2 ^ 64) ++ seqZ lo (hi - lo) ++ seqZ hi (2 ^ 64 - hi).
Proof.
  intros H1 H2 H3. rewrite (ints_split lo) by lia. f_equal. rewrite (seqZ_split lo (2 ^ 64) (2 ^ 64 - lo) hi) by lia. reflexivity.
Qed.
Lemma rsum_range g x n : (forall v, 0 <= g v) -> (- 2 ^ 64 <= x)%Z -> (0 <= n)%Z -> (x + n <= 2 ^ 64)%Z -> rsum (seqZ x n) g <= rsum ints g.
Proof.
  intros Hg H1 H2 H3. rewrite (ints_three x (x + n)) by lia. rewrite !rsum_app. replace (x + n - x)%Z with n by lia.
  pose proof (rsum_nonneg (seqZ (- 2 ^ 64) (x - - 2 ^ 64)) g ltac:(intros; apply Hg)). pose proof (rsum_nonneg (seqZ (x + n) (2 ^ 64 - (x + n))) g ltac:(intros; apply Hg)). lra.
Qed.
Lemma rsum_map {A B} (h : A -> B) l g : rsum (map h l) g = rsum l (fun x => g (h x)).
Proof. induction l as [|x l IH]; cbn [map]; rewrite ?rsum_nil, ?rsum_cons, ?IH; done. Qed.
Lemma rsum_shift d x n g : rsum (seqZ x n) (fun v => g (v + d)%Z) = rsum (seqZ (x + d) n) g.
Proof. rewrite (Z.add_comm x d), <- fmap_add_seqZ. change (Z.add d <$> seqZ x n) with (map (Z.add d) (seqZ x n)). rewrite rsum_map. apply rsum_ext. intros v _. by rewrite Z.add_comm. Qed.

(** ** The buffer *)
Lemma buff_rounds fuel k ssp eps max b : (1 <= k)%nat -> buffRounds fuel k ssp eps max = Done b ->
  exists k', (1 <= k' <= 31)%nat /\ b = (2 ^ N.of_nat k')%N /\ 1 / 2 * exp (- 2 ^ k' / (max / eps)) <= / 2 ^ N.to_nat ssp.
Proof.
  revert k. induction fuel as [|fuel IH]; intros k Hk; cbn [buffRounds]; [done|]. destruct (Nat.ltb_spec 31 k); [done|].
  destruct (Rle_dec _ _) as [H1|H1]; [|apply IH; lia]. intros [= <-]. exists k. split; [lia|]. done.
Qed.
Lemma buff_size eps max b : 0 < eps -> 0 < max -> computeBuffSize 40 eps max = Done b ->
  (2 <= b <= 2 ^ 31)%N /\ exp (- (eps / max * sizeR b)) <= / 2 ^ 39.
Proof.
  intros He Hm. unfold computeBuffSize. change (40 =? 0)%N with false. cbv iota. destruct (Req_EM_T max 0); [lra|]. intros (k & Hk & -> & H)%buff_rounds; [|lia]. split.
  - split; [change 2%N with (2 ^ 1)%N at 1|]; apply N.pow_le_mono_r; lia.
  - replace (sizeR (2 ^ N.of_nat k)) with (2 ^ k).
    + replace (- (eps / max * 2 ^ k)) with (- 2 ^ k / (max / eps)) by (field; lra). change (N.to_nat 40) with (S 39) in H. rewrite <- (tech_pow_Rmult 2 39) in H.
      rewrite Rinv_mult in H. lra.
    + unfold sizeR. rewrite N2Z.inj_pow, nat_N_Z. apply pow_IZR.
Qed.
Lemma exp_two : 2 <= exp 1.
Proof. pose proof (exp_ineq1 1 ltac:(lra)). lra. Qed.
Lemma exp_pow n : exp (- INR n) <= / 2 ^ n.
Proof.
  rewrite exp_Ropp. apply Rinv_le_contravar; [apply pow_lt; lra|]. replace (INR n) with (INR n * 1) by ring.
  induction n as [|n IH]; [change (2 ^ 0) with 1; change (INR 0) with 0; rewrite Rmult_0_l, exp_0; lra|].
  rewrite S_INR. replace ((INR n + 1) * 1) with (INR n * 1 + 1) by ring. rewrite exp_plus, <- (tech_pow_Rmult 2 n). pose proof exp_two. pose proof (pow_lt 2 n ltac:(lra)). nra.
Qed.
Lemma buff_found fuel k ssp eps max : (k + fuel = 33)%nat -> (1 <= k <= 31)%nat -> 1 / 2 * exp (- 2 ^ 31 / (max / eps)) <= / 2 ^ N.to_nat ssp -> exists b, buffRounds fuel k ssp eps max = Done b.
Proof.
  revert k. induction fuel as [|fuel IH]; intros k Hf Hk H; [lia|]. cbn [buffRounds]. destruct (Nat.ltb_spec 31 k); [lia|]. destruct (Rle_dec _ _) as [H1|H1]; [eauto|].
  destruct (decide (k = 31%nat)) as [->|Hne]; [by destruct H1|]. apply IH; [lia|lia|done].
Qed.
Theorem buff_total eps max : 0 < eps -> 0 < max -> 39 * max <= eps * 2 ^ 31 -> exists b, computeBuffSize 40 eps max = Done b.
Proof.
  intros He Hm H. unfold computeBuffSize. change (40 =? 0)%N with false. cbv iota. destruct (Req_EM_T max 0); [lra|]. apply buff_found; [lia|lia|].
  change (N.to_nat 40) with (S 39). rewrite <- (tech_pow_Rmult 2 39), Rinv_mult. assert (exp (- 2 ^ 31 / (max / eps)) <= / 2 ^ 39); [|lra].
  eapply Rle_trans; [|apply (exp_pow 39)]. apply exp_le. replace (- 2 ^ 31 / (max / eps)) with (- (eps * 2 ^ 31 / max)) by (field; lra). apply Ropp_le_contravar.
  replace (INR 39) with 39 by (rewrite INR_IZR_INZ; done). apply Rmult_le_reg_r with max; [done|]. replace (eps * 2 ^ 31 / max * max) with (eps * 2 ^ 31) by (field; lra). lra.
Qed.
Lemma buff_lost fuel k ssp eps max : (k + fuel = 33)%nat -> (1 <= k <= 32)%nat -> 0 < eps -> 0 < max -> / 2 ^ N.to_nat ssp < 1 / 2 * exp (- 2 ^ 31 / (max / eps)) -> buffRounds fuel k ssp eps max = UB.
Proof.
  revert k. induction fuel as [|fuel IH]; intros k Hf Hk He Hm H; [lia|]. cbn [buffRounds]. destruct (Nat.ltb_spec 31 k); [done|]. destruct (Rle_dec _ _) as [H1|H1]; [|apply IH; [lia|lia|done..]].
  assert (exp (- 2 ^ 31 / (max / eps)) <= exp (- 2 ^ k / (max / eps))); [|lra]. apply exp_le. replace (- 2 ^ 31 / (max / eps)) with (- (2 ^ 31 / (max / eps))) by (field; lra).
  replace (- 2 ^ k / (max / eps)) with (- (2 ^ k / (max / eps))) by (field; lra). apply Ropp_le_contravar. apply Rmult_le_compat_r.
  - left. apply Rinv_0_lt_compat, Rdiv_lt_0_compat; done.
  - apply Rle_pow; [lra|lia].
Qed.
Theorem buff_overflow eps max : 0 < eps -> 0 < max -> eps * 2 ^ 31 <= max -> computeBuffSize 40 eps max = UB.
Proof.
  intros He Hm H. unfold computeBuffSize. change (40 =? 0)%N with false. cbv iota. destruct (Req_EM_T max 0); [lra|]. apply buff_lost; [lia|lia|done|done|].
  apply Rlt_le_trans with (1 / 2 * exp (-1)).
  - change (N.to_nat 40) with (S 39). rewrite <- (tech_pow_Rmult 2 39), <- (tech_pow_Rmult 2 38), <- (tech_pow_Rmult 2 37), !Rinv_mult. assert (/ 4 < exp (-1)) as H1.
    { change (-1) with (Ropp 1). rewrite exp_Ropp. apply Rinv_lt_contravar; [|pose proof exp_le_3; lra]. pose proof (exp_pos 1). lra. }
    assert (/ 2 ^ 37 <= 1); [|lra]. rewrite <- Rinv_1. apply Rinv_le_contravar; [lra|]. apply pow_R1_Rle. lra.
  - apply Rmult_le_compat_l; [lra|]. apply exp_le. replace (- 2 ^ 31 / (max / eps)) with (- (eps * 2 ^ 31 / max)) by (field; lra). change (-1) with (Ropp 1). apply Ropp_le_contravar.
    apply Rmult_le_reg_r with max; [done|]. replace (eps * 2 ^ 31 / max * max) with (eps * 2 ^ 31) by (field; lra). lra.
Qed.

(** ** The number of masks *)
Definition announceEv (n : N) (E : N -> bool) (v : Z) : bool := (0 <=? v)%Z && E (n + Z.to_N v)%N.
Lemma masks_prob eps max b sizes loads E : masksProb eps max b sizes loads E =
  rsum ints (fun v => if announceEv (realMasks sizes loads) E v then convLaw (lapCdf (eps / max)) b v else 0).
Proof.
  unfold masksProb. rewrite (prob_ext _ _ (fun vs => match vs with v :: _ => announceEv (realMasks sizes loads) E v | [] => false end)).
  - apply (prob_one _ (announceEv (realMasks sizes loads) E)).
  - intros [|v vs] _; [done|]. unfold announcedMasks, announceEv. destruct (Z.ltb_spec v 0), (Z.leb_spec 0 v); try lia; done.
Qed.
Theorem masks_count_dp eps max b n n' E : 0 < eps -> 1 <= max <= 2 ^ 32 -> computeBuffSize 40 eps max = Done b -> IZR (Z.abs (Z.of_N n - Z.of_N n')) <= max ->
  rsum ints (fun v => if announceEv n E v then convLaw (lapCdf (eps / max)) (sizeR b) v else 0) <=
  exp eps * rsum ints (fun v => if announceEv n' E v then convLaw (lapCdf (eps / max)) (sizeR b) v else 0) + (exp (eps + eps / max) / 2 ^ 40 + / 2 ^ 80).
Proof.
  intros He Hm HB HD. destruct (buff_size eps max b He ltac:(lra) HB) as [[Hb1 Hb2] Hexp]. set (a := eps / max) in *.
  assert (0 < a) as Ha by (apply Rdiv_lt_0_compat; lra). assert (a * max = eps) as Eam by (unfold a; field; lra).
  set (d := (Z.of_N n - Z.of_N n')%Z) in *.
  assert (Z.abs d <= 2 ^ 32)%Z as Hd. { apply le_IZR. eapply Rle_trans; [exact HD|]. replace (IZR (2 ^ 32)) with (2 ^ 32); [lra|]. by rewrite pow_IZR. }
  set (law := convLaw (lapCdf a) (sizeR b)). assert (isLaw law) as [HL _] by (by apply lap_law).
  set (f := fun v => if announceEv n E v then law v else 0). set (g := fun v => if announceEv n' E v then law v else 0).
  assert (forall v, 0 <= g v) as Hg by (intros v; unfold g; destruct (announceEv n' E v); [apply HL|lra]).
  set (lo := Z.max 1 (1 - d)). set (hi := Z.min (2 ^ 64) (2 ^ 64 - d)).
  assert (rsum (seqZ lo (hi - lo)) f <= exp eps * rsum ints g) as S2.
  { eapply Rle_trans; [apply (rsum_le _ _ (fun v => exp eps * g (v + d)%Z))|].
    - intros v Hv. apply elem_of_seqZ in Hv. unfold f, g. assert (1 <= v)%Z by lia. assert (1 <= v + d)%Z by lia.
      assert (announceEv n E v = announceEv n' E (v + d)) as ->.
      { unfold announceEv. destruct (Z.leb_spec 0 v), (Z.leb_spec 0 (v + d)); try lia. cbn [andb]. f_equal. lia. }
      destruct (announceEv n' E (v + d)); [|lra]. unfold law, convLaw, convHi, convLo. destruct (Z.ltb_spec v 0), (Z.ltb_spec 0 v), (Z.ltb_spec (v + d) 0), (Z.ltb_spec 0 (v + d)); try lia.
      pose proof (lap_shift a Ha (- IZR d) (IZR v - sizeR b) (IZR v + 1 - sizeR b) ltac:(lra)) as G. rewrite plus_IZR.
      replace (IZR v + 1 - sizeR b - - IZR d) with (IZR v + IZR d + 1 - sizeR b) in G by ring. replace (IZR v - sizeR b - - IZR d) with (IZR v + IZR d - sizeR b) in G by ring.
      eapply Rle_trans; [exact G|]. apply Rmult_le_compat_r.
      + pose proof (lap_le a Ha (IZR v + IZR d - sizeR b) (IZR v + IZR d + 1 - sizeR b) ltac:(lra)). lra.
      + apply exp_le. rewrite Rabs_Ropp, Rabs_Zabs. rewrite <- Eam. apply Rmult_le_compat_l; lra.
    - rewrite rsum_scale. apply Rmult_le_compat_l; [left; apply exp_pos|]. rewrite rsum_shift. apply rsum_range; [done|lia|lia|lia]. }
  assert (forall l, rsum l f <= rsum l law) as Hfl.
  { intros l. apply rsum_le. intros v _. unfold f. destruct (announceEv n E v); [lra|apply HL]. }
  assert (IZR (Z.abs d) = Rabs (IZR d)) as EZ by (by rewrite abs_IZR).
  assert (rsum (seqZ (- 2 ^ 64) (lo - - 2 ^ 64)) f <= exp (eps + a) / 2 ^ 40) as S1.
  { eapply Rle_trans; [apply Hfl|]. unfold law. rewrite law_sum by lia. replace (- 2 ^ 64 + (lo - - 2 ^ 64))%Z with lo by lia.
    pose proof (lap_bound a Ha (convLo (- 2 ^ 64) - sizeR b)). pose proof (lap_exp a (convLo lo - sizeR b)) as G.
    assert (exp (a * (convLo lo - sizeR b)) / 2 <= exp (eps + a) / 2 ^ 40); [|lra].
    assert (exp (a * (convLo lo - sizeR b)) <= exp (eps + a) * exp (- (a * sizeR b))).
    { rewrite <- exp_plus. apply exp_le. rewrite <- Eam. replace (a * max + a + - (a * sizeR b)) with (a * (max + 1 - sizeR b)) by ring. apply Rmult_le_compat_l; [lra|].
      assert (convLo lo <= 1 + max); [|lra]. unfold convLo. destruct (Z.ltb_spec 0 lo); [|lia]. assert (IZR lo <= 1 + IZR (Z.abs d)); [|lra]. rewrite <- plus_IZR. apply IZR_le. lia. }
    rewrite <- (tech_pow_Rmult 2 39). pose proof (exp_pos (eps + a)). replace (exp (eps + a) / (2 * 2 ^ 39)) with (exp (eps + a) * / 2 ^ 39 / 2) by (field; apply pow_nonzero; lra). nra. }
  assert (rsum (seqZ hi (2 ^ 64 - hi)) f <= / 2 ^ 80) as S3.
  { eapply Rle_trans; [apply Hfl|]. unfold law. rewrite law_sum by lia. pose proof (lap_bound a Ha (convLo (hi + (2 ^ 64 - hi)) - sizeR b)).
    assert (1 - lapCdf a (convLo hi - sizeR b) <= / 2 ^ 80); [|lra]. rewrite <- lap_sym. eapply Rle_trans; [apply lap_exp|].
    assert (a * - (convLo hi - sizeR b) <= - (a * sizeR b) + (- (a * sizeR b) + - (a * sizeR b))) as G.
    { replace (- (a * sizeR b) + (- (a * sizeR b) + - (a * sizeR b))) with (a * (- (3 * sizeR b))) by ring. apply Rmult_le_compat_l; [lra|].
      assert (4 * sizeR b <= convLo hi); [|lra]. unfold convLo. destruct (Z.ltb_spec 0 hi); [|lia]. unfold sizeR. rewrite <- mult_IZR. apply IZR_le. lia. }
    apply exp_le in G. rewrite !exp_plus in G. pose proof (exp_pos (- (a * sizeR b))). set (u := exp (- (a * sizeR b))) in *. set (q := / 2 ^ 39) in *.
    assert (0 < q) by (apply Rinv_0_lt_compat, pow_lt; lra). assert (u * (u * u) <= q * (q * q)).
    { apply Rmult_le_compat; [lra|nra|done|]. apply Rmult_le_compat; lra. }
    assert (q * (q * q) <= / 2 ^ 80); [|nra]. unfold q. rewrite <- !Rinv_mult, <- !pow_add. apply Rinv_le_contravar; [apply pow_lt; lra|]. apply Rle_pow; [lra|lia]. }
  rewrite (ints_three lo hi) at 1 by lia. rewrite !rsum_app. fold g. lra.
Qed.
Lemma realMasks_at pre post loads : exists k, forall x, realMasks (pre ++ x :: post) loads = (k + x * default 0 (loads !! length pre))%N.
Proof.
  revert loads. induction pre as [|p pre IH]; intros loads.
  - destruct loads as [|l loads]; [exists 0%N; intros x; cbn; lia|]. exists (realMasks post loads). intros x. unfold realMasks. cbn. lia.
  - destruct loads as [|l loads]; [exists 0%N; intros x; cbn; lia|]. destruct (IH loads) as [k Hk]. exists (p * l + k)%N. intros x. change (realMasks ((p :: pre) ++ x :: post) (l :: loads)) with (p * l + realMasks (pre ++ x :: post) loads)%N.
    rewrite Hk. change ((l :: loads) !! length (p :: pre)) with (loads !! length pre). lia.
Qed.
Lemma realMasks_move pre s mid t post loads M : Forall (fun l => l <= M)%N loads ->
  (Z.abs (Z.of_N (realMasks (pre ++ (s + 1)%N :: mid ++ t :: post) loads) - Z.of_N (realMasks (pre ++ s :: mid ++ (t + 1)%N :: post) loads)) <= Z.of_N M)%Z.
Proof.
  intros HF. assert (forall i, default 0%N (loads !! i) <= M)%N as HM.
  { intros i. destruct (loads !! i) as [l|] eqn:E; cbn; [|lia]. by apply (Forall_lookup_1 _ _ _ _ HF E). }
  destruct (realMasks_at pre (mid ++ t :: post) loads) as [k Hk]. destruct (realMasks_at (pre ++ s :: mid) post loads) as [k' Hk']. rewrite Hk.
  specialize (Hk s). pose proof (Hk' t) as H1. specialize (Hk' (t + 1)%N). rewrite <- (assoc_L (++)) in H1, Hk'. cbn [app] in H1, Hk'. rewrite Hk'. rewrite Hk in H1.
  pose proof (HM (length pre)). pose proof (HM (length (pre ++ s :: mid))). lia.
Qed.
Theorem masks_dp eps M b pre s mid t post loads E : 0 < eps -> (1 <= M <= 255)%N -> Forall (fun l => l <= M)%N loads -> computeBuffSize 40 eps (sizeR M) = Done b ->
  masksProb eps (sizeR M) (sizeR b) (pre ++ (s + 1)%N :: mid ++ t :: post) loads E <=
  exp eps * masksProb eps (sizeR M) (sizeR b) (pre ++ s :: mid ++ (t + 1)%N :: post) loads E + (exp (eps + eps / sizeR M) / 2 ^ 40 + / 2 ^ 80).
Proof.
  intros He HM HF HB. rewrite !masks_prob. apply masks_count_dp; [done| |done|].
  - unfold sizeR. split; [apply (IZR_le 1); lia|]. rewrite pow_IZR. apply IZR_le. lia.
  - unfold sizeR. apply IZR_le. by apply realMasks_move.
Qed.
Theorem masks_dp_back eps M b pre s mid t post loads E : 0 < eps -> (1 <= M <= 255)%N -> Forall (fun l => l <= M)%N loads -> computeBuffSize 40 eps (sizeR M) = Done b ->
  masksProb eps (sizeR M) (sizeR b) (pre ++ s :: mid ++ (t + 1)%N :: post) loads E <=
  exp eps * masksProb eps (sizeR M) (sizeR b) (pre ++ (s + 1)%N :: mid ++ t :: post) loads E + (exp (eps + eps / sizeR M) / 2 ^ 40 + / 2 ^ 80).
Proof.
  intros He HM HF HB. rewrite !masks_prob. apply masks_count_dp; [done| |done|].
  - unfold sizeR. split; [apply (IZR_le 1); lia|]. rewrite pow_IZR. apply IZR_le. lia.
  - unfold sizeR. apply IZR_le. pose proof (realMasks_move pre s mid t post loads M HF). lia.
Qed.

(** ** Tables *)
Lemma no_table_loads mx cap noise sizes : Forall (fun s => s <= 255)%N sizes -> (forall i s, sizes !! i = Some s -> - 2 ^ 31 <= Z.of_N s + noise i < 2 ^ 31)%Z ->
  exists tot, computeLoads (noTableCfg mx cap) noise sizes = Done (sizes, tot).
Proof.
  intros HS HN. apply computeLoads_ok; [done|]. intros i s l Hs Hl. rewrite Hs in Hl. injection Hl as <-. pose proof (HN i s Hs). pose proof (Forall_lookup_1 _ _ _ _ HS Hs) as Hs255. cbv beta in Hs255.
  unfold binLoad, noTableCfg. cbn [cLap cCw cOneSided cMax cTable cStart]. change (-1 =? -1)%Z with true. cbn [negb]. destruct (N.ltb_spec 255 s); [lia|].
  destruct (Z.ltb_spec (Z.of_N s + noise i) (- 2 ^ 31)); [lia|]. destruct (Z.leb_spec (2 ^ 31) (Z.of_N s + noise i)); [lia|]. cbn [orb cutTable cutTail length]. unfold lookupAt.
  replace (Z.to_nat _) with 0%nat by (cbn [length]; lia). cbn. f_equal. lia.
Qed.
Lemma keys_all (P : N -> N -> N -> Prop) : Forall (fun k => P k.1.1 k.1.2 k.2) tableKeys -> forall n m eps, hasTable n m eps = true -> P n m eps.
Proof.
  intros HF n m eps H. unfold hasTable in H. apply existsb_exists in H as (k & Hk & H). apply elem_of_list_In in Hk. rewrite Forall_forall in HF. specialize (HF k Hk).
  apply andb_true_iff in H as [[H1%N.eqb_eq H2%N.eqb_eq]%andb_true_iff H3%N.eqb_eq]. by subst.
Qed.
Lemma keys_bool (p : N -> N -> N -> bool) : forallb (fun k : N * N * N => p k.1.1 k.1.2 k.2) tableKeys = true -> forall n m eps, hasTable n m eps = true -> p n m eps = true.
Proof. intros H. apply (keys_all (fun n m eps => p n m eps = true)). apply Forall_forall. intros k Hk. rewrite forallb_forall in H. apply H. by apply elem_of_list_In. Qed.
Lemma no_default_eps n m : hasTable n m defaultEps = false.
Proof.
  destruct (hasTable n m defaultEps) eqn:E; [|done]. apply (keys_bool (fun _ _ e => negb (e =? 900)%N)) in E; [done|]. vm_compute. reflexivity.
Qed.
Lemma no_default_bins n eps : hasTable n (defaultBins n) eps = false.
Proof.
  destruct (hasTable n (defaultBins n) eps) eqn:E; [|done]. apply (keys_bool (fun n m _ => (1 <? m)%N && (m <? n / 4)%N)) in E; [|vm_compute; reflexivity].
  apply andb_true_iff in E as [E1%N.ltb_lt E2%N.ltb_lt]. unfold defaultBins in *. lia.
Qed.
Lemma table_sizes n m eps : hasTable n m eps = true -> n ∈ [256; 4096; 65536; 1048576]%N.
Proof.
  intros E. apply (keys_bool (fun n _ _ => bool_decide (n ∈ [256; 4096; 65536; 1048576]%N))) in E; [by apply bool_decide_eq_true in E|]. vm_compute. reflexivity.
Qed.
(** ** Threshold *)
Lemma cw_loads c noise cw : cLap c = false -> cCw c = Z.of_N cw -> (cw < cMax c)%N -> (cMax c <= 255)%N ->
  computeLoads c noise [cw] = Done ([cw], cw) /\ computeLoads c noise [(cw + 1)%N] = Done ([cMax c], cMax c).
Proof.
  intros H1 H2 H3 H4. unfold computeLoads. cbn [length seq foldl andThen]. unfold loadStep. cbn [lookup list_lookup]. unfold binLoad. rewrite H1, H2.
  destruct (Z.eqb_spec (Z.of_N cw) (-1)); [lia|]. cbn [negb]. rewrite (Z.mod_small (Z.of_N cw)) by lia. rewrite N2Z.id, N.ltb_irrefl.
  destruct (N.ltb_spec cw (cw + 1)); [|lia]. unfold andThen; cbn [obind fst snd app]. assert (two64 = 2 ^ 64)%N as -> by reflexivity. rewrite !N.add_0_l, !(N.mod_small _ 256), !N.mod_small by lia. done.
Qed.
Lemma buff_enough eps max : 0 < eps -> 0 < max -> 39 * max <= eps * 2 ^ 31 ->
  exists b, computeBuffSize 40 eps max = Done b /\ lapCdf (eps / max) (- sizeR b) <= / 2 ^ 40.
Proof.
  intros He Hm H. destruct (buff_total eps max He Hm H) as [b Hb]. exists b. split; [done|]. destruct (buff_size eps max b He Hm Hb) as [_ G].
  eapply Rle_trans; [apply lap_exp|]. replace (eps / max * - sizeR b) with (- (eps / max * sizeR b)) by ring. rewrite <- (tech_pow_Rmult 2 39), Rinv_mult. lra.
Qed.
