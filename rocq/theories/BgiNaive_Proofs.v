(** Proofs about the naive evaluation of a whole tree. *)
From Verif Require Import Base Bgi_Model Bgi_Spec Bgi_Proofs BgiFull_Proofs BgiSum_Proofs BgiNaive_Spec.

Lemma lxor_succ i : exists t, N.log2 (N.lxor (i + 1) i) = t /\ (i + 1) mod 2 ^ t = 0 /\ N.lxor (i + 1) i ≠ 0.
Proof.
  induction i as [|j IH|j IH] using N.binary_ind.
  - exists 0. done.
  - exists 0. assert (N.lxor (N.double j + 1) (N.double j) = 1) as ->.
    { replace (N.double j + 1) with (N.succ_double j) by (destruct j; done). destruct j as [|p]; [done|]. cbn.
      change (N.succ_double (N.lxor (N.pos p) (N.pos p)) = 1). by rewrite N.lxor_nilpotent. }
    split; [done|]. split; [by rewrite N.mod_1_r|done].
  - destruct IH as (t & Ht & Hm & Hz). exists (t + 1).
    assert (N.lxor (N.succ_double j + 1) (N.succ_double j) = N.succ_double (N.lxor (j + 1) j)) as ->.
    { replace (N.succ_double j + 1) with (N.double (j + 1)) by lia.
      destruct (j + 1) as [|p] eqn:Ep; [lia|]. destruct j as [|q]; [done|]. cbn. done. }
    split; [|split].
    + rewrite N.succ_double_spec, N.log2_succ_double by lia. lia.
    + replace (N.succ_double j + 1) with (2 * (j + 1)) by lia. rewrite N.pow_add_r. change (2 ^ 1) with 2.
      rewrite (N.mul_comm (2 ^ t)). rewrite N.mul_mod_distr_l; [lia| |done]. apply N.pow_nonzero. done.
    + lia.
Qed.

Lemma ascend_naive D idx : idx + 1 < 2 ^ N.of_nat D -> N.of_nat D < 2 ^ 64 ->
  exists d, ascend (N.of_nat D) idx = N.of_nat d /\ (d < D)%nat /\ (idx + 1) mod 2 ^ N.of_nat (D - 1 - d) = 0 /\
    forall j, (D - d <= j)%nat -> N.testbit (idx + 1) (N.of_nat j) = N.testbit idx (N.of_nat j).
Proof.
  intros H H64. destruct (ascend_ok D idx H H64) as (d & E & Hd & Hj). exists d. split; [done|]. split; [done|]. split.
  - destruct (lxor_succ idx) as (t & Ht & Hm & Hz). unfold ascend in E. rewrite Ht in E.
    assert (t < N.of_nat D) as Hl.
    { rewrite <- Ht. apply N.log2_lt_pow2; [lia|]. apply xor_small; lia. }
    replace (N.of_nat D + 2 ^ 64 - (t + 1)) with (N.of_nat D - (t + 1) + 1 * 2 ^ 64) in E by lia.
    rewrite N.mod_add in E by done. rewrite N.mod_small in E by lia.
    replace (N.of_nat (D - 1 - d)) with t by lia. done.
  - intros j Hjj. specialize (Hj d ltac:(lia)).
    rewrite <- (N.sub_add (N.of_nat (D - d)) (N.of_nat j)) by lia. rewrite <- !N.div_pow2_bits. by rewrite Hj.
Qed.

Lemma map_offset {A} (f : N -> A) pos n : map (fun i => f (N.of_nat (pos + i))) (seq 0 n) = map f (map N.of_nat (seq pos n)).
Proof.
  rewrite map_map. replace (seq pos n) with (seq (pos + 0) n) by (f_equal; lia). rewrite <- fmap_add_seq.
  unfold fmap. rewrite <- (map_map (Nat.add pos) (fun i => f (N.of_nat i))). done.
Qed.

Section Naive.
Context (aes : bool -> N -> N) (k0 : N) (cws : list N).
Notation D := (length cws).

(** The word of level [d] for leaf [idx]. *)
Definition wordAt (idx : N) (d : nat) : N := walk aes (naiveBranch D idx) 0 k0 (take d cws).

Lemma walk_app b c1 : forall c2 d s, walk aes b d s (c1 ++ c2) = walk aes b (d + length c1) (walk aes b d s c1) c2.
Proof.
  induction c1 as [|c c1 IH]; intros c2 d s; cbn; [by rewrite Nat.add_0_r|]. rewrite IH. f_equal. lia.
Qed.
Lemma walk_ext b b' c : forall d s, (forall j, (d <= j < d + length c)%nat -> b j = b' j) -> walk aes b d s c = walk aes b' d s c.
Proof.
  induction c as [|x c IH]; intros d s H; [done|]. cbn in *. rewrite (H d) by lia. apply IH. intros j Hj. apply H. lia.
Qed.

Definition GoodWords (idx : N) (d : nat) (ws : list N) : Prop :=
  length ws = S D /\ forall j, (j <= d)%nat -> ws !! j = Some (wordAt idx j).

Lemma naiveDown_ok idx fuel : forall d ws, (d <= D)%nat -> (D - d <= fuel)%nat -> idx mod 2 ^ N.of_nat (D - 1 - d) = 0 ->
  GoodWords idx d ws ->
  exists ws', naiveDown aes fuel cws idx (N.of_nat d) ws = Some ws' /\ GoodWords idx D ws'.
Proof.
  induction fuel as [|f IH]; intros d ws Hd Hf Hm HG; cbn [naiveDown].
  - assert (d = D) as -> by lia. rewrite N.eqb_refl. eauto.
  - destruct (N.eqb_spec (N.of_nat d) (N.of_nat D)) as [E|E]; [apply Nat2N.inj in E as ->; eauto|].
    destruct HG as [L HG]. destruct (lookup_lt_is_Some_2 cws d) as [cw Hcw]; [lia|].
    rewrite (proj2 (readN_Some ws (N.of_nat d) (wordAt idx d))) by (rewrite Nat2N.id; by apply HG).
    rewrite (proj2 (readN_Some cws (N.of_nat d) cw)) by (by rewrite Nat2N.id).
    unfold writeN. destruct (N.ltb_spec (N.of_nat d + 1) (N.of_nat (length ws))); [|lia].
    replace (N.of_nat d + 1) with (N.of_nat (S d)) by lia. rewrite Nat2N.id.
    apply IH; [lia|lia| |].
    + rewrite <- (N.mod_mod (idx) (2 ^ N.of_nat (D - 1 - S d))) by (apply N.pow_nonzero; done).
      destruct (decide (D - 1 - d = 0)%nat) as [Z|Z].
      { replace (D - 1 - S d)%nat with 0%nat by lia. change (2 ^ N.of_nat 0) with 1. by rewrite N.mod_1_r. }
      apply N.div_exact in Hm; [|apply N.pow_nonzero; done]. rewrite Hm.
      replace (N.of_nat (D - 1 - d)) with (N.of_nat (D - 1 - S d) + 1) by lia. rewrite N.pow_add_r. change (2 ^ 1) with 2.
      rewrite N.mod_mod by (apply N.pow_nonzero; done).
      replace (2 ^ N.of_nat (D - 1 - S d) * 2 * (idx / (2 ^ N.of_nat (D - 1 - S d) * 2)))
        with (2 * (idx / (2 ^ N.of_nat (D - 1 - S d) * 2)) * 2 ^ N.of_nat (D - 1 - S d)) by lia.
      apply N.mod_mul, N.pow_nonzero. done.
    + split; [by rewrite insert_length|]. intros j Hj. destruct (decide (j = S d)) as [->|].
      * rewrite list_lookup_insert by lia. f_equal. unfold wordAt. rewrite (take_S_r _ _ _ Hcw), walk_app. cbn [walk].
        rewrite take_length_le by lia. cbn. f_equal. unfold naiveBranch.
        destruct (Nat.leb_spec D (2 * d + 1)); [done|]. cbn. 
        apply N.div_exact in Hm; [|apply N.pow_nonzero; done]. rewrite Hm, N.mul_comm, <- N.shiftl_mul_pow2.
        apply N.shiftl_spec_low. lia.
      * rewrite list_lookup_insert_ne by done. apply HG. lia.
Qed.

Lemma GoodWords_next idx ws : idx + 1 < 2 ^ N.of_nat D -> N.of_nat D < 2 ^ 64 -> GoodWords idx D ws ->
  exists d, ascend (N.of_nat D) idx = N.of_nat d /\ (d <= D)%nat /\ (idx + 1) mod 2 ^ N.of_nat (D - 1 - d) = 0 /\
    GoodWords (idx + 1) d ws.
Proof.
  intros H H64 [L HG]. destruct (ascend_naive D idx H H64) as (d & E & Hd & Hm & Hb). exists d. split; [done|]. split; [lia|].
  split; [done|]. split; [done|]. intros j Hj. rewrite HG by lia. f_equal. unfold wordAt. apply walk_ext. intros i Hi.
  rewrite take_length_le in Hi by lia. unfold naiveBranch. destruct (Nat.leb_spec D (2 * i + 1)); [|done]. cbn.
  symmetry. apply Hb. lia.
Qed.

Lemma naiveSum_ok s gs data pos f : (pos + gs * 128 <= length data)%nat ->
  (forall i, (i < gs * 128)%nat -> f (N.of_nat (pos + i)) = N.testbit (leafBlock aes s (i / 128)) (N.of_nat (i mod 128))) ->
  forall n i sum, (i + n = gs * 128)%nat ->
  naiveSum (map (leafBlock aes s) (seq 0 gs)) data (pos + i) n i sum =
  Some (N.lxor sum (xorAll (map (fun i => term f data (N.of_nat (pos + i))) (seq i n)))).
Proof.
  intros Hd Hf. induction n as [|n IH]; intros i sum Hi; cbn [naiveSum seq map].
  - unfold xorAll. cbn. by rewrite N.lxor_0_r.
  - rewrite lookup_map_seq by (apply Nat.div_lt_upper_bound; lia).
    destruct (lookup_lt_is_Some_2 data (pos + i)) as [x Hx]; [lia|]. rewrite Hx.
    replace (S (pos + i)) with (pos + S i)%nat by lia. rewrite IH by lia. f_equal.
    unfold xorAll. cbn [foldr]. rewrite <- N.lxor_assoc. f_equal. unfold term at 1. rewrite Nat2N.id, Hx.
    rewrite <- Hf by lia. destruct (f _); cbn; [done|by rewrite N.lxor_0_r].
Qed.

Lemma naiveLoop_ok gs data fuel : N.of_nat D < 2 ^ 64 ->
  length data = (N.to_nat (2 ^ N.of_nat D) * (gs * 128))%nat ->
  forall idx d ws sum, (N.to_nat idx + fuel = N.to_nat (2 ^ N.of_nat D))%nat ->
  (idx < 2 ^ N.of_nat D -> exists d', d = N.of_nat d' /\ (d' <= D)%nat /\ idx mod 2 ^ N.of_nat (D - 1 - d') = 0 /\ GoodWords idx d' ws) ->
  naiveLoop aes fuel data cws gs idx d ws sum =
  Done (N.lxor sum (xorAll (map (term (naiveBit aes k0 cws gs) data)
    (map N.of_nat (seq (N.to_nat idx * (gs * 128)) (fuel * (gs * 128))))))).
Proof.
  intros H64 Hlen. induction fuel as [|f IH]; intros idx d ws sum Hi Hw; cbn [naiveLoop].
  - rewrite (proj2 (N.eqb_eq _ _)) by lia. unfold xorAll. cbn. by rewrite N.lxor_0_r.
  - destruct (N.eqb_spec idx (2 ^ N.of_nat D)); [lia|].
    destruct Hw as (d' & -> & Hd' & Hm & HG); [lia|].
    destruct (naiveDown_ok idx D d' ws Hd' ltac:(lia) Hm HG) as (ws' & -> & HG').
    assert (last ws' = Some (wordAt idx D)) as ->.
    { rewrite last_lookup. destruct HG' as [L HG']. rewrite L. cbn. by apply HG'. }
    pose proof (naiveSum_ok (wordAt idx D) gs data (N.to_nat idx * (gs * 128)) (naiveBit aes k0 cws gs)) as HS.
    rewrite <- (Nat.add_0_r (N.to_nat idx * (gs * 128))) at 1. rewrite HS; [|rewrite Hlen; nia| |lia].
    2:{ intros i Hgi. unfold naiveBit, wordAt. rewrite firstn_all.
        assert (N.of_nat (N.to_nat idx * (gs * 128) + i) = N.of_nat i + idx * (N.of_nat gs * 128)) as -> by lia.
        rewrite N.mod_add, N.div_add by lia. rewrite N.mod_small, N.div_small, N.add_0_l by lia.
        change 128 with (N.of_nat 128). rewrite <- Nat2N.inj_div, <- Nat2N.inj_mod, Nat2N.id. done. }
    rewrite (IH (idx + 1)); [|lia|].
    + replace (S f * (gs * 128))%nat with (gs * 128 + f * (gs * 128))%nat by lia.
      rewrite seq_app, !map_app, xorAll_app, N.lxor_assoc, map_offset.
      replace (N.to_nat (idx + 1) * (gs * 128))%nat with (N.to_nat idx * (gs * 128) + gs * 128)%nat by lia. done.
    + intros Hlt. apply (GoodWords_next idx ws'); [lia|done|done].
Qed.
End Naive.

Lemma naive_value aes data k0 cws g : N.of_nat (length cws) < 2 ^ 64 ->
  fullDomainNaive aes data (k0 :: cws) g =
  if N.of_nat (length data) =? domainSize (length cws) (length g)
  then Done (selectXor (naiveBit aes k0 cws (length g)) data) else Thrown 0.
Proof.
  intros H64. unfold fullDomainNaive, domainSize.
  replace (2 ^ N.of_nat (length cws) * 128 * N.of_nat (length g)) with (2 ^ N.of_nat (length cws) * N.of_nat (length g) * 128) by lia.
  destruct (N.eqb_spec (N.of_nat (length data)) (2 ^ N.of_nat (length cws) * N.of_nat (length g) * 128)) as [E|]; [|done].
  assert (length data = N.to_nat (2 ^ N.of_nat (length cws)) * (length g * 128))%nat as Ed by lia.
  rewrite (naiveLoop_ok aes k0 cws (length g) data); [|done|done|lia|].
  - rewrite N.lxor_0_l, selectXor_positions. unfold allPositions. rewrite Nat2N.id, Ed. done.
  - intros _. exists 0%nat. split; [done|]. split; [lia|]. split.
    { apply N.mod_0_l, N.pow_nonzero. done. }
    split; [cbn; by rewrite replicate_length|]. intros j Hj. assert (j = 0)%nat as -> by lia. done.
Qed.

(** ** The first two leaves *)

Lemma selectXor_app f l1 l2 : selectXor f (l1 ++ l2) = N.lxor (selectXor f l1) (selectXor (fun p => f (N.of_nat (length l1) + p)) l2).
Proof.
  unfold selectXor. rewrite imap_app, xorAll_app. f_equal. f_equal. apply imap_ext. intros i x _. cbn.
  by rewrite Nat2N.inj_add.
Qed.
Lemma selectXor_ext f f' l : (forall p, p < N.of_nat (length l) -> f p = f' p) -> selectXor f l = selectXor f' l.
Proof.
  intros H. unfold selectXor. f_equal. apply imap_ext. intros i x Hx. apply lookup_lt_Some in Hx. rewrite H by lia. done.
Qed.

Lemma naiveBit_twins aes k0 cws gs p : (2 <= length cws)%nat -> p < N.of_nat gs * 128 ->
  naiveBit aes k0 cws gs (N.of_nat gs * 128 + p) = naiveBit aes k0 cws gs p.
Proof.
  intros HD Hp. unfold naiveBit.
  replace (N.of_nat gs * 128 + p) with (p + 1 * (N.of_nat gs * 128)) by lia. rewrite N.mod_add, N.div_add by lia.
  rewrite (N.div_small p) by done. f_equal. f_equal. apply walk_ext. intros j Hj. unfold naiveBranch.
  destruct (Nat.leb_spec (length cws) (2 * j + 1)); [|done]. cbn [andb]. destruct j as [|j]; [lia|].
  change (0 + 1) with 1. rewrite N.bits_0. apply N.bits_above_log2. change (N.log2 1) with 0. lia.
Qed.

Lemma naive_blind aes a b rest k0 cws g : (2 <= length cws)%nat -> N.of_nat (length cws) < 2 ^ 64 ->
  length a = (length g * 128)%nat -> length b = (length g * 128)%nat ->
  fullDomainNaive aes (a ++ b ++ rest) (k0 :: cws) g = fullDomainNaive aes (b ++ a ++ rest) (k0 :: cws) g.
Proof.
  intros HD H64 La Lb. rewrite !naive_value by done.
  assert (length (b ++ a ++ rest) = length (a ++ b ++ rest)) as -> by (rewrite !app_length; lia).
  destruct (_ =? _); [|done]. f_equal. rewrite !selectXor_app, La, Lb.
  assert (forall l, length l = (length g * 128)%nat ->
    selectXor (fun p => naiveBit aes k0 cws (length g) (N.of_nat (length g * 128) + p)) l = selectXor (naiveBit aes k0 cws (length g)) l) as HT.
  { intros l Hl. apply selectXor_ext. intros p Hp. rewrite Nat2N.inj_mul. apply naiveBit_twins; [done|]. lia. }
  rewrite !HT by done. rewrite <- !N.lxor_assoc. f_equal. apply N.lxor_comm.
Qed.
