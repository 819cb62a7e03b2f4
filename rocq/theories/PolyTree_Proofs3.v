(** Proofs about the polynomial tree: the numbers of threads and points. *)
From Verif Require Import Base PolyTree_Model PolyTree_Spec PolyTree_Proofs PolyTree_Proofs2.
Local Open Scope nat_scope.

Section threads.
Context (K : fops).
Notation arrT := (list (list (fT K))).

(** Steps that always succeed. *)
Lemma runOps_total (step : arrT -> nat -> outcome arrT) size (valid : nat -> Prop) :
  (forall arr v, length arr = size -> valid v -> exists p, step arr v = Done (<[v := p]> arr)) ->
  forall ops arr, length arr = size -> Forall valid ops -> exists arr', runOps K step ops arr = Done arr' /\ length arr' = size /\ forall c, c ∉ ops -> arr' !! c = arr !! c.
Proof.
  intros Hs. induction ops as [|v ops IH]; intros arr Hl Hv; cbn [runOps]; [by exists arr|]. apply Forall_cons in Hv as [Hv Hvs]. destruct (Hs arr v Hl Hv) as [p ->].
  destruct (IH (<[v := p]> arr)) as (arr' & E1 & E2 & E3); [by rewrite insert_length|done|]. exists arr'. split; [done|]. split; [done|]. intros c Hc. apply not_elem_of_cons in Hc as [Hne Hc]. rewrite (E3 c Hc). by apply list_lookup_insert_ne.
Qed.
Lemma runLevels_total (step : arrT -> nat -> outcome arrT) size (valid : nat -> Prop) sch :
  (forall arr v, length arr = size -> valid v -> exists p, step arr v = Done (<[v := p]> arr)) ->
  forall levels arr, length arr = size -> (forall i v, i ∈ levels -> 2 ^ i - 1 <= v <= 2 ^ S i - 2 -> valid v) ->
  exists arr', runLevels K step sch levels arr = Done arr' /\ length arr' = size /\ forall c, (forall i, i ∈ levels -> ¬ (2 ^ i - 1 <= c <= 2 ^ S i - 2)) -> arr' !! c = arr !! c.
Proof.
  intros Hs. induction levels as [|i levels IH]; intros arr Hl Hv; cbn [runLevels]; [by exists arr|].
  destruct (runOps_total step size valid Hs (interleave (sch i) (map (fun j => [j]) (levelNodes i))) arr Hl) as (arr1 & -> & E2 & E3).
  { apply Forall_forall. intros v Hin%level_in. apply (Hv i); [by left|done]. }
  destruct (IH arr1 E2) as (arr2 & E4 & E5 & E6); [intros j v Hj; apply Hv; by right|]. exists arr2. split; [done|]. split; [done|]. intros c Hc. rewrite E6 by (intros j Hj; apply Hc; by right).
  apply E3. intros Hin%level_in. by apply (Hc i); [left|].
Qed.
(** One step that never succeeds. [bad] is [UB] or [Thrown []]. *)
Lemma runOps_bad (step : arrT -> nat -> outcome arrT) size (valid : nat -> Prop) bad v0 : bad = UB \/ bad = Thrown [] ->
  (forall arr v, length arr = size -> valid v -> (exists p, step arr v = Done (<[v := p]> arr)) \/ step arr v = bad) -> (forall arr, length arr = size -> step arr v0 = bad) ->
  forall ops arr, length arr = size -> Forall valid ops -> (v0 ∈ ops -> runOps K step ops arr = bad) /\ ((exists arr', runOps K step ops arr = Done arr' /\ length arr' = size) \/ runOps K step ops arr = bad).
Proof.
  intros Hb Hs H0. induction ops as [|v ops IH]; intros arr Hl Hv; cbn [runOps].
  - split; [intros H; by apply elem_of_nil in H|]. left. by exists arr.
  - apply Forall_cons in Hv as [Hv Hvs]. destruct (Hs arr v Hl Hv) as [[p Ep]|Ep]; rewrite Ep.
    + destruct (IH (<[v := p]> arr)) as [I1 I2]; [by rewrite insert_length|done|]. split; [|done]. intros [Hin|Hin]%elem_of_cons; [|auto]. subst v0. exfalso. rewrite (H0 arr Hl) in Ep. destruct Hb; subst bad; discriminate.
    + destruct Hb; subst bad; split; [done|by right|done|by right].
Qed.
Lemma runLevels_bad (step : arrT -> nat -> outcome arrT) size (valid : nat -> Prop) v0 sch :
  (forall arr v, length arr = size -> valid v -> (exists p, step arr v = Done (<[v := p]> arr)) \/ step arr v = Thrown []) -> (forall arr, length arr = size -> step arr v0 = Thrown []) ->
  forall levels arr, length arr = size -> (forall i v, i ∈ levels -> 2 ^ i - 1 <= v <= 2 ^ S i - 2 -> valid v) -> (exists i, i ∈ levels /\ 2 ^ i - 1 <= v0 <= 2 ^ S i - 2) ->
  runLevels K step sch levels arr = Thrown [].
Proof.
  intros Hs H0. induction levels as [|i levels IH]; intros arr Hl Hv (k & Hk & Hv0); [by apply elem_of_nil in Hk|]. cbn [runLevels].
  destruct (runOps_bad step size valid (Thrown []) v0 (or_intror eq_refl) Hs H0 (interleave (sch i) (map (fun j => [j]) (levelNodes i))) arr Hl) as [I1 I2].
  { apply Forall_forall. intros v Hin%level_in. apply (Hv i); [by left|done]. }
  apply elem_of_cons in Hk as [-> |Hk].
  - rewrite I1; [done|]. by apply level_in.
  - destruct I2 as [(arr1 & -> & E2)|I2]; [|by rewrite I2]. apply IH; [done|intros j v Hj; apply Hv; by right|by exists k].
Qed.

Lemma mul_total size arr v : length arr = size -> 2 * v + 2 < size -> exists p, mulNode K arr v = Done (<[v := p]> arr).
Proof.
  intros Hl Hv. unfold mulNode. destruct (lookup_lt_is_Some_2 arr (LEFT v)) as [a ->]; [unfold LEFT; lia|]. destruct (lookup_lt_is_Some_2 arr (RIGHT v)) as [b ->]; [unfold RIGHT; lia|].
  destruct (lookup_lt_is_Some_2 arr v) as [o ->]; [lia|]. eauto.
Qed.
Lemma mul_ub arr v : length arr <= 2 * v + 2 -> mulNode K arr v = UB.
Proof. intros Hl. unfold mulNode. rewrite (lookup_ge_None_2 arr (RIGHT v)) by (unfold RIGHT; lia). by destruct (arr !! LEFT v). Qed.

(** Fewer than two points per thread. *)
Lemma build_ub sc sch T (pts : list (fT K)) : 0 < T -> length pts < 2 * T -> buildTree K sc sch T pts = UB.
Proof.
  intros HT Hn. unfold buildTree. destruct (decide (length pts - 1 = 0)) as [E0|E0].
  { rewrite E0. unfold genSubs. destruct T as [|T]; [lia|]. done. }
  destruct (genSubs_ok T (length pts - 1) (T - 1)) as (subs & -> & Hs1 & Hs2); [lia|]. set (tree0 := _ ++ _). assert (length tree0 = 2 * length pts - 1) as Hl by (unfold tree0; rewrite app_length, replicate_length, map_length; lia).
  set (ops := interleave _ _). destruct (runOps_bad (mulNode K) (2 * length pts - 1) (fun _ => True) UB (2 * T - 2) (or_introl eq_refl)) with (ops := ops) (arr := tree0) as [I1 _].
  - intros arr v Ha _. destruct (decide (2 * v + 2 < 2 * length pts - 1)) as [H|H]; [left; by apply (mul_total (2 * length pts - 1))|right; apply mul_ub; lia].
  - intros arr Ha. apply mul_ub. lia.
  - done.
  - by apply Forall_true.
  - rewrite I1; [done|]. unfold ops. rewrite interleave_perm, concat_in. destruct (lookup_lt_is_Some_2 subs (T - 1)) as [s Es]; [lia|]. exists (T - 1), (rev s). rewrite list_lookup_fmap, Es. split; [done|].
    apply elem_of_list_In, in_rev. rewrite rev_involutive. apply elem_of_list_In. destruct (Hs2 _ _ Es) as [_ [Hok _]]. apply Hok. left. lia.
Qed.

(** The nodes that no thread and no level computes stay zero. *)
Lemma build_gap sc sch T (pts : list (fT K)) : 0 < T -> 2 * T <= length pts -> exists subs tree1 tree2 tree, buildTree K sc sch T pts = Done tree /\ length tree = 2 * length pts - 1 /\
  genSubs T (length pts - 1) (T - 1) = Some subs /\ runOps K (mulNode K) (interleave sc (map (@rev nat) subs)) (replicate (length pts - 1) [] ++ map (fun x => [fopp K x; f1 K]) pts) = Done tree1 /\
  runLevels K (mulNode K) sch (upLevels T) tree1 = Done tree2 /\ mulNode K tree2 0 = Done tree /\ length tree1 = 2 * length pts - 1 /\ length tree2 = 2 * length pts - 1 /\
  (forall c, c < T - 1 -> tree1 !! c = Some []) /\ forall c, 2 ^ Nat.log2 T - 1 <= c < T - 1 -> 0 < c -> tree2 !! c = Some [] /\ tree !! c = Some [].
Proof.
  intros HT Hn. unfold buildTree. destruct (genSubs_ok T (length pts - 1) (T - 1)) as (subs & Es & Hs1 & Hs2); [lia|]. rewrite Es. set (tree0 := _ ++ _). assert (length tree0 = 2 * length pts - 1) as Hl by (unfold tree0; rewrite app_length, replicate_length, map_length; lia).
  set (ops := interleave sc (map (@rev nat) subs)). assert (forall v, v ∈ ops -> T - 1 <= v < length pts - 1) as Hops.
  { intros v. unfold ops. rewrite interleave_perm, concat_in. intros (i & s & Hs & Hv). rewrite list_lookup_fmap in Hs. destruct (subs !! i) as [s'|] eqn:E; [|done]. injection Hs as <-.
    apply elem_of_list_In, in_rev, elem_of_list_In in Hv. destruct (Hs2 _ _ E) as [Hi [Hok _]]. apply Hok in Hv as [-> |[Hb Hv]]; [lia|]. apply below_ge in Hb. lia. }
  pose proof (Nat.log2_spec T HT) as Hlog.
  destruct (runOps_total (mulNode K) (2 * length pts - 1) (fun v => v < length pts - 1)) with (ops := ops) (arr := tree0) as (tree1 & E0 & E1 & E2); [intros; apply (mul_total (2 * length pts - 1)); [done|lia]|done|apply Forall_forall; intros v Hv; by apply Hops|].
  assert (forall i v, i ∈ upLevels T -> 2 ^ i - 1 <= v <= 2 ^ S i - 2 -> 1 <= v <= 2 ^ Nat.log2 T - 2) as Hup.
  { intros i v Hi Hv. unfold upLevels in Hi. apply elem_of_list_In, in_rev, in_seq in Hi. assert (2 ^ 1 <= 2 ^ i) by (apply Nat.pow_le_mono_r; lia). assert (2 ^ S i <= 2 ^ Nat.log2 T) by (apply Nat.pow_le_mono_r; lia). cbn in H. lia. }
  destruct (runLevels_total (mulNode K) (2 * length pts - 1) (fun v => v < length pts - 1) sch) with (levels := upLevels T) (arr := tree1) as (tree2 & E3 & E4 & E5); [intros; apply (mul_total (2 * length pts - 1)); [done|lia]|done|intros i v Hi Hv; apply Hup in Hv; [lia|done]|].
  destruct (mul_total (2 * length pts - 1) tree2 0 E4) as [p Ep]; [lia|]. exists subs, tree1, tree2, (<[0 := p]> tree2). fold ops. rewrite E0, E3. split; [done|]. split; [by rewrite insert_length|]. split; [done|]. split; [done|]. split; [done|]. split; [done|]. split; [done|]. split; [done|].
  assert (forall c, c < T - 1 -> tree1 !! c = Some []) as H1.
  { intros c Hc. rewrite E2 by (intros Hin%Hops; lia). unfold tree0. rewrite lookup_app_l by (rewrite replicate_length; lia). apply lookup_replicate_2. lia. }
  split; [done|]. intros c Hc H0. assert (tree2 !! c = Some []) as H2. { rewrite E5; [apply H1; lia|]. intros i Hi Hv. apply Hup in Hv; [lia|done]. } split; [done|]. by rewrite list_lookup_insert_ne by lia.
Qed.

(** A number of threads that is no power of two, from five on. *)
Lemma eval_gap sc sch T n P (tree old : arrT) : 2 ^ Nat.log2 T < T -> 4 <= T -> T <= n -> length tree = 2 * n - 1 -> length old = 2 * n - 1 -> tree !! (2 ^ Nat.log2 T - 1) = Some [] -> evaluate K sc sch T n P tree old = Thrown [].
Proof.
  intros Hpow H4 Hn Ht Ho Hgap. unfold evaluate. replace (2 * n - 1 <? 3) with false by (symmetry; apply Nat.ltb_ge; lia). destruct (genSubs_ok T (2 * n - 1) (T - 1)) as (subs & -> & _ & _); [lia|].
  set (l := Nat.log2 T) in *. assert (2 <= l) as Hl by (change 2 with (Nat.log2 4); by apply Nat.log2_le_mono). pose proof (Nat.log2_spec T ltac:(lia)) as Hlog. fold l in Hlog.
  assert (Nat.log2_up T = S l) as Hup. { apply Nat.log2_up_unique; [lia|]. cbn [Nat.pred]. lia. }
  assert (4 <= 2 ^ l) as Hl4 by (change 4 with (2 ^ 2); apply Nat.pow_le_mono_r; lia).
  rewrite (runLevels_bad (remNode K tree) (2 * n - 1) (fun v => v < 2 * n - 1) (2 ^ l - 1)); [done| | | | |].
  - intros arr v Ha Hv. unfold remNode. destruct (lookup_lt_is_Some_2 arr (PAPA v)) as [a ->]; [unfold PAPA; lia|]. destruct (lookup_lt_is_Some_2 tree v) as [b ->]; [lia|]. destruct (lookup_lt_is_Some_2 arr v) as [o ->]; [lia|].
    destruct (remP K a b); [left; eauto|by right].
  - intros arr Ha. unfold remNode. destruct (lookup_lt_is_Some_2 arr (PAPA (2 ^ l - 1))) as [a ->]; [unfold PAPA; lia|]. rewrite Hgap. destruct (lookup_lt_is_Some_2 arr (2 ^ l - 1)) as [o ->]; [lia|]. done.
  - rewrite app_length, drop_length. cbn. lia.
  - intros i v Hi Hv. unfold downLevels in Hi. rewrite Hup in Hi. apply elem_of_seq in Hi. assert (2 ^ S i <= 2 ^ S l) by (apply Nat.pow_le_mono_r; lia). cbn in *. lia.
  - exists l. split; [unfold downLevels; rewrite Hup; apply elem_of_seq; lia|]. cbn. lia.
Qed.
End threads.

Section multi.
Context (K : fops) (HK : isField K) (pts : list (fT K)).
Notation n := (length pts).
Notation ev := (evalAt K).
Lemma build_three sc sch : 6 <= n -> exists tree, buildTree K sc sch 3 pts = Done tree /\ length tree = 2 * n - 1 /\ (forall c, 2 <= c < 2 * n - 1 -> holds (goodM K pts) tree c) /\ tree !! 0 = Some [].
Proof using HK.
  intros Hn. destruct (build_gap K sc sch 3 pts) as (subs & t1 & t2 & tree & Eb & Hl & Es & E1 & E2 & E3 & L1 & L2 & G1 & _); [lia|lia|].
  destruct (up_subs (mulNode K) (goodM K pts) n (mulNode_ok K HK pts) sc 3 (replicate (n - 1) [] ++ map (fun x => [fopp K x; f1 K]) pts)) as (subs' & t1' & Es' & E1' & _ & Hg); [rewrite app_length, replicate_length, map_length; lia|lia|lia|intros; by apply leaves_start|].
  rewrite Es in Es'. injection Es' as <-. rewrite E1 in E1'. injection E1' as <-. cbn in E2. injection E2 as <-. exists tree. split; [done|]. split; [done|].
  unfold mulNode in E3. change (LEFT 0) with 1 in E3. change (RIGHT 0) with 2 in E3. rewrite (G1 0), (G1 1) in E3 by lia. destruct (t1 !! 2) as [b|] eqn:E; [|done]. assert (tree = <[0 := mulP K [] b]> t1) as -> by congruence. split.
  - intros c Hc. destruct (Hg c) as (q & Eq & Hq); [cbn; lia|lia|]. exists q. by rewrite list_lookup_insert_ne by lia.
  - rewrite list_lookup_insert by lia. done.
Qed.
Lemma not_pow2 T : 0 < T -> (forall k, T <> 2 ^ k) -> T <> 3 -> 4 <= T /\ 2 ^ Nat.log2 T < T.
Proof.
  intros HT Hk H3. pose proof (Hk 0). pose proof (Hk 1). pose proof (Nat.log2_spec T HT). specialize (Hk (Nat.log2 T)). cbn in *. lia.
Qed.
Lemma multi_ub sc1 sc2 sch1 sch2 T P : 0 < T -> n < 2 * T -> multiEval K sc1 sc2 sch1 sch2 T P pts = UB.
Proof. intros HT Hn. unfold multiEval. by rewrite build_ub. Qed.
Lemma multi_thrown sc1 sc2 sch1 sch2 T P : 0 < T -> 2 * T <= n -> (forall k, T <> 2 ^ k) -> T <> 3 -> multiEval K sc1 sc2 sch1 sch2 T P pts = Thrown [].
Proof.
  intros HT Hn Hk H3. destruct (not_pow2 T HT Hk H3) as [H4 Hlt]. unfold multiEval. destruct (build_gap K sc1 sch1 T pts) as (subs & t1 & t2 & tree & -> & Hl & _ & _ & _ & _ & _ & _ & _ & G); [lia|lia|].
  rewrite eval_gap; [done|done|done|lia|done|by rewrite replicate_length|]. apply G; [lia|]. pose proof (Nat.log2_le_mono 4 T H4) as Hl4. change (Nat.log2 4) with 2 in Hl4. assert (2 ^ 2 <= 2 ^ Nat.log2 T) by (apply Nat.pow_le_mono_r; lia). cbn in *. lia.
Qed.
Lemma multi_done sc1 sc2 sch1 sch2 T P : 2 * T <= n -> (exists k, T = 2 ^ k) \/ T = 3 -> multiEval K sc1 sc2 sch1 sch2 T P pts = Done (map (ev P) pts).
Proof using HK.
  intros Hn [[k ->]| ->]; unfold multiEval.
  - pose proof (pow2_pos k). destruct (build_ok K HK pts sc1 sch1 k Hn) as (tree & -> & Hl & Hg). apply (evaluate_ok K HK pts P tree 0); [|lia|lia|lia|lia|by rewrite replicate_length]. split; [done|]. intros c Hc. apply Hg. lia.
  - destruct (build_three sc1 sch1) as (tree & -> & Hl & Hg & _); [lia|]. apply (evaluate_ok K HK pts P tree 2); [done|lia|lia|lia|lia|by rewrite replicate_length].
Qed.

(** * Interpolation *)
Lemma inter_ub sc1 sc2 sc3 sch1 sch2 sch3 T y : 0 < T -> n < 2 * T -> interpolateZp K sc1 sc2 sc3 sch1 sch2 sch3 T pts y = UB.
Proof. intros HT Hn. unfold interpolateZp, prepare. by rewrite build_ub. Qed.
Lemma interLeaves_thrown (y : list (fT K)) : forall a i, i < length y -> length a = length y -> a !! i = Some (f0 K) -> interLeaves K y a = Thrown [].
Proof using HK.
  induction y as [|v y IH]; intros [|c a] i Hi Hl Ha; try (cbn in *; lia). cbn [interLeaves]. destruct (feqb K c (f0 K)) eqn:E; [done|]. destruct i as [|i].
  - injection Ha as ->. assert (feqb K (f0 K) (f0 K) = true) by (by apply (feq K HK)). congruence.
  - by rewrite (IH a i) by (cbn in *; lia || done).
Qed.
Lemma inter_thrown sc1 sc2 sc3 sch1 sch2 sch3 T y : 0 < T -> 2 * T <= n -> length y = n -> (forall k, T <> 2 ^ k) -> interpolateZp K sc1 sc2 sc3 sch1 sch2 sch3 T pts y = Thrown [].
Proof using HK.
  intros HT Hn Hy Hk. unfold interpolateZp, prepare. destruct (decide (T = 3)) as [-> |H3].
  - destruct (build_three sc1 sch1) as (tree & -> & Hl & Hg & ->); [lia|]. rewrite (evaluate_ok K HK pts (diffP K []) tree 2); [|done|lia|lia|lia|lia|by rewrite replicate_length].
    unfold interpolateWith. rewrite Hy. replace (n <? 2) with false by (symmetry; apply Nat.ltb_ge; lia). rewrite (interLeaves_thrown y _ 0); [done|lia|by rewrite map_length|].
    destruct pts as [|x pts']; [cbn in Hn; lia|]. done.
  - destruct (not_pow2 T HT Hk H3) as [H4 Hlt]. destruct (build_gap K sc1 sch1 T pts) as (subs & t1 & t2 & tree & -> & Hl & _ & _ & _ & _ & _ & _ & _ & G); [lia|lia|].
    destruct (lookup_lt_is_Some_2 tree 0) as [m ->]; [lia|]. rewrite eval_gap; [done|done|done|lia|done|by rewrite replicate_length|]. apply G; [lia|].
    pose proof (Nat.log2_le_mono 4 T H4) as Hl4. change (Nat.log2 4) with 2 in Hl4. assert (2 ^ 2 <= 2 ^ Nat.log2 T) by (apply Nat.pow_le_mono_r; lia). cbn in *. lia.
Qed.
Add Field KF5 : (Kfield K HK).
Lemma dB_double t i j : i ∈ leaves t -> j ∈ leaves t -> i <> j -> pt K pts i = pt K pts j -> dB K pts t (pt K pts i) = f0 K.
Proof using HK.
  induction t as [k|l IHl r IHr]; cbn; intros Hi Hj Hne E.
  - apply elem_of_list_singleton in Hi, Hj. congruence.
  - apply elem_of_app in Hi, Hj. destruct Hi as [Hi|Hi], Hj as [Hj|Hj].
    + rewrite IHl, (prodB_root K HK pts l i) by done. ring.
    + rewrite (prodB_root K HK pts l i), E, (prodB_root K HK pts r j) by done. ring.
    + rewrite (prodB_root K HK pts r i), E, (prodB_root K HK pts l j) by done. ring.
    + rewrite IHr, (prodB_root K HK pts r i) by done. ring.
Qed.
Lemma inter_double sc1 sc2 sc3 sch1 sch2 sch3 L y : 2 * 2 ^ L <= n -> length y = n -> ¬ NoDup pts -> interpolateZp K sc1 sc2 sc3 sch1 sch2 sch3 (2 ^ L) pts y = Thrown [].
Proof using HK.
  intros Hn Hy Hnd. pose proof (pow2_pos L). unfold interpolateZp, prepare. destruct (build_ok K HK pts sc1 sch1 L Hn) as (M & -> & HMl & HMg). destruct (HMg 0) as (m & -> & t & Ht & _ & Hm); [lia|].
  rewrite (evaluate_ok K HK pts (diffP K m) M 0 (conj HMl (fun c Hc => HMg c (proj2 Hc)))); [|lia|lia|lia|lia|by rewrite replicate_length].
  assert (exists i j x, i <> j /\ pts !! i = Some x /\ pts !! j = Some x) as (i & j & x & Hne & Hi & Hj).
  { clear -Hnd HK. assert (forall a b : fT K, {a = b} + {a <> b}) as dec. { intros a b. destruct (feqb K a b) eqn:E; [left; by apply (feq K HK)|right; intros ->; assert (feqb K b b = true) by (by apply (feq K HK)); congruence]. }
    induction pts as [|x l IH]; [by destruct Hnd; constructor|]. destruct (in_dec dec x l) as [Hx|Hx].
    - apply elem_of_list_In, elem_of_list_lookup in Hx as [j Hj]. exists 0, (S j), x. done.
    - destruct IH as (i & j & z & Hne & Hi & Hj); [intros Hl; apply Hnd; constructor; [by rewrite elem_of_list_In|done]|]. exists (S i), (S j), z. split; [lia|done]. }
  assert (forall k z, pts !! k = Some z -> pt K pts k = z) as Hpt by (intros k z Hz; unfold pt; by apply nth_lookup_Some).
  unfold interpolateWith. rewrite Hy. replace (n <? 2) with false by (symmetry; apply Nat.ltb_ge; lia). rewrite (interLeaves_thrown y _ i); [done|rewrite Hy; by eapply lookup_lt_Some|by rewrite map_length|].
  rewrite list_lookup_fmap, Hi. cbn. f_equal. rewrite (ev_diff K HK), (proj2 (Hm x)), <- (Hpt _ _ Hi). pose proof (root_leaves _ _ Ht) as Hlv.
  apply (dB_double t i j); [rewrite Hlv; apply elem_of_seq; apply lookup_lt_Some in Hi; lia|rewrite Hlv; apply elem_of_seq; apply lookup_lt_Some in Hj; lia|done|by rewrite (Hpt _ _ Hi), (Hpt _ _ Hj)].
Qed.
End multi.

(** * Races *)
Lemma subs_race T total subs : 0 < T -> genSubs T total (T - 1) = Some subs -> noRace (fun v => [LEFT v; RIGHT v]) subs /\ noRace (fun v => [PAPA v]) subs.
Proof.
  intros HT E. destruct (decide (total = 0)) as [-> |H0]; [destruct T; [lia|done]|]. destruct (genSubs_ok T total (T - 1)) as (subs' & E' & Hl & Hok); [lia|]. rewrite E in E'. injection E' as <-.
  assert (forall i s v, subs !! i = Some s -> v ∈ s -> i < T /\ below (T - 1 + i) v) as Hb.
  { intros i s v Hs Hv. destruct (Hok _ _ Hs) as [Hi [Hm _]]. split; [done|]. apply Hm in Hv as [-> |[Hv _]]; [apply below_refl|done]. }
  assert (forall i j v, i < T -> j < T -> below (T - 1 + i) v -> below (T - 1 + j) v -> i = j) as Hd.
  { intros i j v Hi Hj H1 H2. assert (T - 1 + i = T - 1 + j); [|lia]. eapply (below_disjoint T); [done|lia|lia|done|done]. }
  split; intros i j s t v w Hne Hs Ht Hv Hw; destruct (Hb _ _ _ Hs Hv) as [Hi B1], (Hb _ _ _ Ht Hw) as [Hj B2]; (split; [intros E0; subst w; apply Hne, (Hd i j v); done|]).
  - rewrite !elem_of_cons, elem_of_nil. destruct (below_child _ _ B1) as [L R]. intros [E0|[E0|[]]]; subst w; apply Hne; [apply (Hd i j (LEFT v))|apply (Hd i j (RIGHT v))]; done.
  - rewrite elem_of_list_singleton. intros E0. subst w. pose proof (below_ge _ _ B2). destruct (decide (v = T - 1 + i)) as [-> |Hne']; [unfold PAPA in *; lia|]. pose proof (below_ge _ _ B1). apply Hne. eapply Hd; [exact Hi|exact Hj|apply below_papa; [exact B1|lia]|exact B2].
Qed.
Lemma level_race i : noRace (fun v => [LEFT v; RIGHT v]) (map (fun j => [j]) (levelNodes i)) /\ (0 < i -> noRace (fun v => [PAPA v]) (map (fun j => [j]) (levelNodes i))).
Proof.
  pose proof (pow2_pos i) as Hp. assert (forall k s v, map (fun j => [j]) (levelNodes i) !! k = Some s -> v ∈ s -> k < 2 ^ i /\ v = 2 ^ i - 1 + k) as Hk.
  { intros k s v Hs Hv. rewrite list_lookup_fmap in Hs. destruct (levelNodes i !! k) as [j|] eqn:E; [|done]. injection Hs as <-. apply elem_of_list_singleton in Hv as ->. unfold levelNodes in E. apply lookup_seq in E as [-> ?]. done. }
  split; [|intros H0]; intros a b s t v w Hne Hs Ht Hv Hw; destruct (Hk _ _ _ Hs Hv) as [Ha ->], (Hk _ _ _ Ht Hw) as [Hb ->]; (split; [lia|]).
  - rewrite !elem_of_cons, elem_of_nil. unfold LEFT, RIGHT. lia.
  - rewrite elem_of_list_singleton. assert (2 ^ 1 <= 2 ^ i) as H2 by (apply Nat.pow_le_mono_r; lia). change (2 ^ 1) with 2 in H2. unfold PAPA. intros E. lia.
Qed.

(** * Summary *)
Lemma reuse_ok K sc1 sc2 sch1 sch2 k T P pts old tree : isField K -> 2 * 2 ^ k <= length pts -> 0 < T <= length pts -> length old = 2 * length pts - 1 ->
  buildTree K sc1 sch1 (2 ^ k) pts = Done tree -> evaluate K sc2 sch2 T (length pts) P tree old = Done (map (evalAt K P) pts).
Proof.
  intros HK Hn HT Ho Eb. pose proof (pow2_pos k). destruct (build_ok K HK pts sc1 sch1 k Hn) as (tree' & Eb' & Hl & Hg). rewrite Eb in Eb'. injection Eb' as <-.
  apply (evaluate_ok K HK pts P tree 0); [|lia|lia|lia|lia|done]. split; [done|]. intros c Hc. apply Hg. lia.
Qed.
Lemma inter_unique K sc1 sc2 sc3 sch1 sch2 sch3 k pts y : isField K -> 2 * 2 ^ k <= length pts -> length y = length pts -> NoDup pts ->
  exists p, interpolateZp K sc1 sc2 sc3 sch1 sch2 sch3 (2 ^ k) pts y = Done p /\ normal K p /\ length p <= length pts /\ map (evalAt K p) pts = y /\
    forall q, normal K q -> length q <= length pts -> map (evalAt K q) pts = y -> q = p.
Proof.
  intros HK Hn Hy Hnd. destruct (interpolate_ok K HK sc1 sc2 sc3 sch1 sch2 sch3 k pts y Hn Hy Hnd) as (p & Ep & Hl & He & Hp). exists p. split; [done|]. split; [done|]. split; [done|]. split; [done|].
  intros q Hq Hlq Heq. apply (eval_unique K HK pts); [done..|]. congruence.
Qed.
Lemma inter_fails K sc1 sc2 sc3 sch1 sch2 sch3 T pts y : isField K -> 0 < T -> length y = length pts ->
  (length pts < 2 * T -> interpolateZp K sc1 sc2 sc3 sch1 sch2 sch3 T pts y = UB) /\
  (2 * T <= length pts -> (forall k, T <> 2 ^ k) \/ ¬ NoDup pts -> interpolateZp K sc1 sc2 sc3 sch1 sch2 sch3 T pts y = Thrown []).
Proof.
  intros HK HT Hy. split; [intros Hn; by apply inter_ub|]. intros Hn Hc. destruct (decide (2 ^ Nat.log2 T = T)) as [E|E].
  - rewrite <- E in Hc, Hn |- *. destruct Hc as [Hc|Hc]; [by destruct (Hc (Nat.log2 T))|]. by apply inter_double.
  - apply inter_thrown; [done..|]. intros k Ek. apply E. rewrite Ek. by rewrite Nat.log2_pow2 by lia.
Qed.
Lemma inter_reuse K sc1 sc2 sc3 sch1 sch2 sch3 k k' pts y old M a : isField K -> 2 * 2 ^ k <= length pts -> 2 * 2 ^ k' <= length pts -> length y = length pts -> NoDup pts -> length old = length pts - 1 ->
  prepare K sc1 sc2 sch1 sch2 (2 ^ k) pts = Done (M, a) -> exists p, interpolateWith K sc3 sch3 (2 ^ k') y a M old = Done p /\ length p <= length pts /\ map (evalAt K p) pts = y.
Proof.
  intros HK Hn Hn' Hy Hnd Ho Ep. destruct (prepare_ok K HK sc1 sc2 sch1 sch2 k pts Hn) as (M' & t & Ep' & HM & Ht). rewrite Ep in Ep'. injection Ep' as <- ->.
  destruct (interpolateWith_ok K HK sc3 sch3 k' pts y M t old Hn' Hy Hnd HM Ht Ho) as (p & E1 & E2 & E3 & _). by exists p.
Qed.
Lemma race_ok T total subs i : 0 < T -> genSubs T total (T - 1) = Some subs ->
  noRace (fun v => [LEFT v; RIGHT v]) subs /\ noRace (fun v => [PAPA v]) subs /\
  noRace (fun v => [LEFT v; RIGHT v]) (map (fun j => [j]) (levelNodes i)) /\ (0 < i -> noRace (fun v => [PAPA v]) (map (fun j => [j]) (levelNodes i))).
Proof. intros HT E. destruct (subs_race T total subs HT E). destruct (level_race i). done. Qed.
Lemma cover_ok T total subs v : 0 < T -> 2 * T - 1 <= total -> genSubs T total (T - 1) = Some subs -> NoDup (concat subs) /\ (v ∈ concat subs <-> T - 1 <= v < total).
Proof.
  intros HT Hn E. destruct (genSubs_ok T total (T - 1)) as (subs' & E' & Hl & Hok); [lia|]. rewrite E in E'. injection E' as <-. split.
  - assert (forall s, s ∈ subs -> NoDup s) as H1.
    { intros s Hs. apply elem_of_list_lookup in Hs as [i Hs]. destruct (Hok _ _ Hs) as (_ & _ & _ & Hm). apply NoDup_alt. intros a b x Ha Hb. destruct (lt_eq_lt_dec a b) as [[H|H]|H]; [|done|]; [pose proof (Hm _ _ _ _ H Ha Hb)|pose proof (Hm _ _ _ _ H Hb Ha)]; lia. }
    assert (forall i j s t v, i <> j -> subs !! i = Some s -> subs !! j = Some t -> v ∈ s -> v ∉ t) as H2.
    { intros i j s t w Hne Hs Ht Hw Hw'. destruct (subs_race T total subs HT E) as [Hr _]. by destruct (Hr i j s t w w Hne Hs Ht Hw Hw'). }
    clear -H1 H2. induction subs as [|s subs IH]; [constructor|]. cbn. apply NoDup_app. split; [apply H1; by left|]. split.
    + intros w Hw Hin. apply concat_in in Hin as (i & t & Ht & Hwt). exact (H2 0 (S i) s t w ltac:(lia) eq_refl Ht Hw Hwt).
    + apply IH; [intros t Ht; apply H1; by right|]. intros i j a b w Hne Ha Hb. apply (H2 (S i) (S j)); [lia|done|done].
  - rewrite concat_in. split.
    + intros (i & s & Hs & Hv). destruct (Hok _ _ Hs) as (Hi & Hm & _). apply Hm in Hv as [-> |[Hb Hv]]; [lia|]. apply below_ge in Hb. lia.
    + intros Hv. destruct (below_cover T v HT) as (i & Hi & Hb); [lia|]. destruct (lookup_lt_is_Some_2 subs i) as [s Es]; [lia|]. exists i, s. split; [done|]. destruct (Hok _ _ Es) as (_ & Hm & _). apply Hm. right. split; [done|lia].
Qed.
