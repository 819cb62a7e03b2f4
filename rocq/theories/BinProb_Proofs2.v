From Coq Require Import QArith.
From Verif Require Import Base SimpleIndex_Model SimpleIndex_Spec BinSize_Proofs SimpleHasher_Model BinProb_Model BinProb_Spec BinProb_Proofs Tools_Spec SimpleHasher_Proofs.
Local Open Scope N_scope.

(** ** The terms decrease *)
Lemma choose_step n : forall k, choose n (S k) * N.of_nat (S k) = choose n k * N.of_nat (n - k).
Proof.
  induction n as [|n IH]; intros k.
  - cbn [choose]. destruct k; cbn [choose]; lia.
  - destruct (decide (n < k)%nat) as [H|H]. { rewrite (choose_big (S n) (S k)) by lia. replace (S n - k)%nat with 0%nat by lia. lia. }
    cbn [choose]. rewrite N.mul_add_distr_r, IH. destruct k as [|k].
    + rewrite !choose_0. lia.
    + cbn [choose]. pose proof (IH k) as E. cbn [choose] in E. set (A := choose n k) in *. set (C := choose n (S k)) in *.
      replace (N.of_nat (S (S k))) with (N.of_nat (S k) + 1) by lia. replace (N.of_nat (S n - S k)) with (N.of_nat (n - k)) by lia. replace (N.of_nat (n - k)) with (N.of_nat (n - S k) + 1) in * by lia. lia.
Qed.
Lemma term_step b n k : 1 <= b -> term b n (S k) * (N.of_nat (S k) * (b - 1)) = term b n k * N.of_nat (n - k).
Proof.
  intros Hb. unfold term. pose proof (choose_step n k) as E. destruct (decide (k < n)%nat) as [H|H].
  - assert ((b - 1) ^ N.of_nat (n - k) = (b - 1) * (b - 1) ^ N.of_nat (n - S k)) as -> by (rewrite <- N.pow_succ_r'; f_equal; lia). set (p := (b - 1) ^ N.of_nat (n - S k)). set (e := b - 1). set (A := choose n k) in *. set (C := choose n (S k)) in *. 
    transitivity (b * p * e * (C * N.of_nat (S k))); [ring|]. rewrite E. ring.
  - rewrite (choose_big n (S k)) by lia. replace (n - k)%nat with 0%nat by lia. lia.
Qed.
Lemma term_decay b n k : 2 <= b -> N.of_nat n <= N.of_nat k * b -> term b n (S k) * (N.of_nat n + b) <= term b n k * N.of_nat n.
Proof.
  intros Hb Hk. pose proof (term_step b n k ltac:(lia)) as E. destruct (decide (k <= n)%nat) as [H|H].
  - set (m := N.of_nat (S k) * (b - 1)) in *. assert (0 < m) as Hm by (unfold m; nia). apply (N.mul_le_mono_pos_r _ _ m); [done|].
    transitivity (term b n (S k) * m * (N.of_nat n + b)); [apply N.eq_le_incl; ring|]. rewrite E. rewrite <- !N.mul_assoc. apply N.mul_le_mono_l.
    unfold m. replace (N.of_nat (n - k)) with (N.of_nat n - N.of_nat k) by lia. replace (N.of_nat (S k)) with (N.of_nat k + 1) by lia. set (x := N.of_nat n) in *. set (y := N.of_nat k) in *. assert (y <= x) as Hy by (unfold x, y; lia). clearbody x y. clear -Hb Hk Hy.
    assert (exists e, b = e + 1 /\ 1 <= e) as (e & -> & He) by (exists (b - 1); lia). replace (e + 1 - 1) with e by lia. assert (exists d, x = y + d) as (d & ->) by (exists (x - y); lia). replace (y + d - y) with d by lia. nia.
  - unfold term. rewrite (choose_big n (S k)) by lia. lia.
Qed.
Lemma sum_shift b n m : 2 <= b -> forall k, N.of_nat n <= N.of_nat k * b -> (N.of_nat n + b) * sumN (term b n) (seq (S k) m) <= N.of_nat n * sumN (term b n) (seq k m).
Proof.
  intros Hb. induction m as [|m IH]; intros k Hk; [cbn; lia|]. cbn [seq sumN foldr].
  change (foldr (fun i acc => term b n i + acc) 0 ?l) with (sumN (term b n) l). pose proof (IH (S k) ltac:(lia)) as H. pose proof (term_decay b n k Hb Hk) as H'. lia.
Qed.
Lemma sum_more g k m : sumN g (seq k m) <= g k + sumN g (seq (S k) m).
Proof.
  assert (g k + sumN g (seq (S k) m) = sumN g (seq k (S m))) as -> by done. rewrite seq_S, sumN_app. lia.
Qed.
Lemma tail_bound b n k m : 2 <= b -> N.of_nat n <= N.of_nat k * b -> b * sumN (term b n) (seq (S k) m) <= N.of_nat n * term b n k.
Proof. intros Hb Hk. pose proof (sum_shift b n m Hb k Hk). pose proof (sum_more (term b n) k m). nia. Qed.

(** ** The loop *)
Lemma loop_bound cn cd b n : 2 <= b -> 0 < cd <= cn -> forall rounds i sum go,
  N.of_nat n <= N.of_nat i * b ->
  (go = false -> b * cd * sumN (term b n) (seq i rounds) <= (cn - cd) * N.of_nat n * sum) ->
  (sum + sumN (term b n) (seq i rounds)) * (cd * b) <= probLoop cn cd b n rounds i sum sum go * (cd * b + (cn - cd) * N.of_nat n).
Proof.
  intros Hb Hc. induction rounds as [|rounds IH]; intros i sum go Hi Hgo.
  - cbn [seq sumN foldr probLoop]. nia.
  - destruct go.
    + cbn [probLoop]. set (sum' := sum + term b n i). replace (sum + sumN (term b n) (seq i (S rounds))) with (sum' + sumN (term b n) (seq (S i) rounds)).
      2: { unfold sum'. cbn [seq sumN foldr]. change (foldr (fun i acc => term b n i + acc) 0 ?l) with (sumN (term b n) l). lia. }
      apply IH; [lia|]. intros Hf. pose proof (tail_bound b n i rounds Hb Hi) as Ht. set (Sg := sumN (term b n) (seq (S i) rounds)) in *.
      assert (cd * term b n i <= (cn - cd) * sum') as Hq.
      { unfold far in Hf. destruct (N.eqb_spec sum 0) as [E|E]; destruct (N.eqb_spec sum' 0) as [E'|E']; cbn [andb orb] in Hf; try discriminate Hf.
        - assert (term b n i = 0) as -> by (unfold sum' in E'; lia). lia.
        - apply N.ltb_ge in Hf. rewrite N.min_l, N.max_r in Hf by (unfold sum'; lia). unfold sum' in Hf |- *. nia. }
      transitivity (cd * (N.of_nat n * term b n i)); [nia|]. nia.
    + cbn [probLoop]. specialize (Hgo eq_refl). nia.
Qed.
Lemma loop_start cn cd b n size D : 2 <= b -> 0 < cd <= cn -> (size < n)%nat -> N.of_nat n <= N.of_nat (S size) * b -> 0 < D ->
  let res := probLoop cn cd b n (n - size) (S size) 0 D true in
  0 < res /\ (sumN (term b n) (seq (S size) (n - size)) * (cd * b) <= res * (cd * b + (cn - cd) * N.of_nat n) \/ cd * D <= cn * res).
Proof.
  intros Hb Hc Hs Hi HD res. assert (forall k, (k <= n)%nat -> 0 < choose n k) as Hch.
  { clear. induction n as [|n IH]; intros [|k] H; try (rewrite choose_0; lia); [lia|]. cbn [choose]. pose proof (IH k ltac:(lia)). lia. }
  assert (0 < term b n (S size)) as Ht. { unfold term. pose proof (Hch (S size) ltac:(lia)) as H1. assert (0 < (b - 1) ^ N.of_nat (n - S size)) as H2 by (apply N.neq_0_lt_0, N.pow_nonzero; lia). nia. }
  assert (forall rounds i sum go, 0 < sum -> sum <= probLoop cn cd b n rounds i sum sum go) as Hmono.
  { induction rounds as [|rounds IH]; intros i sum go Hsum; cbn [probLoop]; [lia|]. destruct go; [|lia]. etransitivity; [|apply IH; lia]. lia. }
  unfold res. replace (n - size)%nat with (S (n - S size)) by lia. cbn [probLoop]. rewrite N.add_0_l. split.
  { eapply N.lt_le_trans; [exact Ht|]. by apply Hmono. }
  destruct (far cn cd D (term b n (S size))) eqn:Ef.
  - left. cbn [seq sumN foldr]. change (foldr (fun i acc => term b n i + acc) 0 ?l) with (sumN (term b n) l). apply loop_bound; [done|done|lia|done].
  - right. assert (probLoop cn cd b n (n - S size) (S (S size)) (term b n (S size)) (term b n (S size)) false = term b n (S size)) as -> by (by destruct (n - S size)%nat).
    unfold far in Ef. rewrite (proj2 (N.eqb_neq D 0)), (proj2 (N.eqb_neq (term b n (S size)) 0)) in Ef by lia. cbn [andb orb] in Ef. apply N.ltb_ge in Ef.
    etransitivity; [apply N.mul_le_mono_l, N.le_max_l|]. etransitivity; [exact Ef|]. apply N.mul_le_mono_l, N.le_min_r.
Qed.

(** ** The chosen size *)
Lemma size_bound cn cd b n stat size : 0 < b -> 0 < cd <= cn -> cn < 2 * cd -> N.max 1 (n / b) <= size -> meets (estimate cn cd) b n stat size ->
  overflowCount (N.to_nat b) (N.to_nat n) (N.to_nat size) * 2 ^ stat * (cd * b) <= (cd * b + (cn - cd) * n) * b ^ n.
Proof.
  intros Hb Hc Hc2 Hsize Hm. pose proof (union_bound (N.to_nat b) (N.to_nat n) (N.to_nat size)) as Hu. rewrite N2Nat.id in Hu.
  destruct (N.le_gt_cases n size) as [Hn|Hn].
  { replace (N.to_nat n - N.to_nat size)%nat with 0%nat in Hu by lia. cbn [seq sumN foldr] in Hu. assert (overflowCount (N.to_nat b) (N.to_nat n) (N.to_nat size) = 0) as -> by (by apply N.le_0_r). rewrite !N.mul_0_l. apply N.le_0_l. }
  destruct Hm as [Hm|Hm]; [lia|]. assert (2 <= b) as Hb2. { clear Hm Hu. destruct (N.eq_dec b 1) as [E|E]; [|lia]. rewrite E, N.div_1_r in Hsize. lia. }
  assert (n < b * (size + 1)) as Hi. { pose proof (N.mul_succ_div_gt n b ltac:(lia)). nia. }
  unfold estimate in Hm. set (D := b ^ n) in *. assert (0 < D) as HD by (apply N.neq_0_lt_0, N.pow_nonzero; lia).
  destruct (loop_start cn cd b (N.to_nat n) (N.to_nat size) D Hb2 Hc ltac:(lia) ltac:(lia) HD) as [Hpos Hres].
  replace (N.to_nat (n - size)) with (N.to_nat n - N.to_nat size)%nat in Hm by lia. replace (N.to_nat (size + 1)) with (S (N.to_nat size)) in Hm by lia.
  set (res := probLoop _ _ _ _ _ _ _ _ _) in *. rewrite N2Nat.id in Hres. rewrite (proj2 (N.eqb_neq res 0)) in Hm by lia.
  set (U := overflowCount _ _ _) in *. set (Sg := sumN _ _) in *.
  assert (U <= D) as HUD.
  { unfold U, D, overflowCount. replace (b ^ n) with (N.of_nat (N.to_nat b ^ N.to_nat n)) by (rewrite Nat2N.inj_pow, !N2Nat.id; done). rewrite <- placements_length. 
    generalize (overflows (N.to_nat b) (N.to_nat size)), (placements (N.to_nat b) (N.to_nat n)). intros p l. clear. induction l as [|a l IH]; [done|]. cbn [List.filter length]. destruct (p a); cbn [length]; lia. }
  assert (stat = 0 \/ 2 ^ stat * res <= D) as Hst.
  { destruct (N.leb_spec D res) as [H|H].
    - left. unfold Qle in Hm. cbn in Hm. lia.
    - right. unfold Qle in Hm. cbn [Qnum Qden inject_Z] in Hm. assert (stat <= N.log2 (D / res)) as Hl by lia. assert (0 < D / res) as Hd. { apply N.div_str_pos. lia. }
      apply (N.pow_le_mono_r 2) in Hl; [|lia]. pose proof (N.log2_spec (D / res) Hd) as [H1 _]. pose proof (N.mul_div_le D res ltac:(lia)). nia. }
  assert (U * 2 ^ 0 * (cd * b) <= (cd * b + (cn - cd) * n) * D) as H0.
  { rewrite N.pow_0_r, N.mul_1_r. etransitivity; [apply N.mul_le_mono_r, HUD|]. rewrite (N.mul_comm D). apply N.mul_le_mono_r. apply N.le_add_r. }
  clearbody U Sg res D. destruct Hst as [->|Hst]; [exact H0|]. destruct Hres as [Hres|Hres].
  - transitivity (Sg * 2 ^ stat * (cd * b)); [apply N.mul_le_mono_r, N.mul_le_mono_r; done|].
    transitivity (2 ^ stat * res * (cd * b + (cn - cd) * n)).
    + transitivity (2 ^ stat * (Sg * (cd * b))); [apply N.eq_le_incl; ring|]. rewrite <- N.mul_assoc. by apply N.mul_le_mono_l.
    + rewrite (N.mul_comm (cd * b + (cn - cd) * n)). by apply N.mul_le_mono_r.
  - destruct (decide (stat = 0)) as [->|Hs0]; [exact H0|]. exfalso. assert (2 <= 2 ^ stat) as H2. { transitivity (2 ^ 1); [done|]. apply N.pow_le_mono_r; lia. }
    assert (2 * res <= D) as H3. { etransitivity; [|exact Hst]. by apply N.mul_le_mono_r. } clear -Hc Hc2 Hres H3 Hpos. nia.
Qed.

Lemma chosen_bound cn cd b n stat : 0 < b -> n <= 2 ^ 31 - 1 -> 0 < cd <= cn -> cn < 2 * cd ->
  exists f0 size, (forall fuel, (f0 <= fuel)%nat -> getBinSize (estimate cn cd) fuel b n stat = Done size) /\ 1 <= size /\
    overflowCount (N.to_nat b) (N.to_nat n) (N.to_nat size) * 2 ^ stat * (cd * b) <= (cd * b + (cn - cd) * n) * b ^ n.
Proof.
  intros Hb Hn Hc Hc2. destruct (getBinSize_full (estimate cn cd) b n stat Hb Hn) as (f0 & r & Hr & Hge & Hm & _). exists f0, r. split; [done|]. split; [lia|]. by apply size_bound.
Qed.

(** ** [SimpleHasher] *)
Lemma hasher_bound cn cd b n sec : 0 < b -> n <= 2 ^ 31 - 1 -> 0 < cd <= cn -> cn < 2 * cd ->
  exists f0 size, 1 <= size /\
    overflowCount (N.to_nat b) (N.to_nat n) (N.to_nat size) * 2 ^ sec * (cd * b) <= (cd * b + (cn - cd) * n) * b ^ n /\
    (255 < size -> forall fuel, (f0 <= fuel)%nat -> exists h, shInit cn cd fuel b n sec = Some (Thrown (size, h))) /\
    (size <= 255 -> exists h0, (forall fuel, (f0 <= fuel)%nat -> shInit cn cd fuel b n sec = Some (Done (size, h0))) /\
       forall f vals work sched, f ∈ placements (N.to_nat b) (N.to_nat n) -> overflows (N.to_nat b) (N.to_nat size) f = false -> length vals = length f ->
         concat work ≡ₚ zip (map N.of_nat f) vals ->
         exists h ts, pushRun h0 (map (mkPusher None) work) sched = Some (h, ts) /\
           (Forall (fun t => puPending t = None /\ puTodo t = []) ts ->
            forall j, (j < N.to_nat b)%nat -> getBin h j ≡ₚ valsTo j (zip (map N.of_nat f) vals))).
Proof.
  intros Hb Hn Hc Hc2. destruct (chosen_bound cn cd b n sec Hb Hn Hc Hc2) as (f0 & size & Hr & H1 & Hbd). exists f0, size. split; [done|]. split; [done|]. split.
  - intros Hs fuel Hf. unfold shInit. rewrite Hr by done. unfold hInit. rewrite (proj2 (N.ltb_lt _ _)) by done. by eexists.
  - intros Hs. assert (exists h0, hInit (N.to_nat b) size = Done h0) as [h0 Hh0]. { unfold hInit. rewrite (proj2 (N.ltb_ge _ _)) by done. by eexists. }
    exists h0. split; [intros fuel Hf; unfold shInit; rewrite Hr by done; by rewrite Hh0|]. intros f vals work sched Hf Ho Hl Hw.
    apply elem_placements in Hf as [Hlf Hb'].
    assert (forall j, Permutation (valsTo j (concat work)) (valsTo j (zip (map N.of_nat f) vals))) as Hv.
    { intros j. unfold valsTo. by apply omap_Permutation. }
    assert (forall g vs j, length vs = length g -> length (valsTo j (zip (map N.of_nat g) vs)) = load g j) as Hload.
    { clear. induction g as [|a g IH]; intros vs j Hl; [done|]. destruct vs as [|v vs]; [done|]. cbn in Hl. cbn [map zip_with]. unfold valsTo. cbn [omap list_omap fst snd]. rewrite load_cons, Nat2N.id.
      rewrite <- (IH vs j ltac:(lia)). destruct (decide _) as [E|E]; [rewrite (proj2 (Nat.eqb_eq j a)) by done|rewrite (proj2 (Nat.eqb_neq j a)) by done]; done. }
    destruct (push_concurrent (N.to_nat b) size h0 work sched Hh0) as (h & ts & Hrun & Hfin).
    + rewrite Hw. apply Forall_forall. intros [x v] Hx. apply elem_of_zip_l in Hx. apply elem_of_list_fmap in Hx as (j & -> & Hj). cbn [fst]. rewrite Nat2N.id. rewrite Forall_forall in Hb'. by apply Hb'.
    + intros j. rewrite (Permutation_length (Hv j)). rewrite Hload by done. destruct (Nat.le_gt_cases (N.to_nat b) j) as [Hj|Hj].
      * assert (load f j = 0%nat) as ->; [|lia]. clear -Hj Hb'. induction Hb' as [|a g Ha Hg IH]; [done|]. rewrite load_cons, IH. by rewrite (proj2 (Nat.eqb_neq j a)) by lia.
      * apply Nat.nlt_ge. intros Hlt. unfold overflows in Ho. assert (existsb (fun j => N.to_nat size <? load f j)%nat (seq 0 (N.to_nat b)) = true); [|congruence]. apply existsb_exists. exists j. split; [apply in_seq; lia|by apply Nat.ltb_lt].
    + exists h, ts. split; [done|]. intros Hts j Hj. rewrite (Hfin Hts j). rewrite decide_True by done. apply Hv.
Qed.
