(** Shares of the trials, the report, and the sizes that are measured. *)
From Verif Require Import Base Measure_Model Measure_Spec Measure_Proofs.

Lemma share_eq tries T t : 0 < T -> t < T -> T * tries < two64 -> shareOf tries T t = (t + 1) * tries / T - t * tries / T /\ t * tries / T <= (t + 1) * tries / T.
Proof.
  intros HT Ht Hw. assert ((t + 1) * tries <= T * tries) as HA by (apply N.mul_le_mono_r; lia). assert (t * tries <= (t + 1) * tries) as HB by (apply N.mul_le_mono_r; lia).
  unfold shareOf. cbv zeta. rewrite (N.mod_small (t * tries)), (N.mod_small ((t + 1) * tries)) by lia. assert (t * tries / T <= (t + 1) * tries / T) as Hle by (apply N.div_le_mono; lia). split; [|done].
  assert ((t + 1) * tries / T < two64) by (apply N.div_lt_upper_bound; [lia|]; assert (1 * two64 <= T * two64) by (apply N.mul_le_mono_r; lia); lia). replace ((t + 1) * tries / T + two64 - t * tries / T) with ((t + 1) * tries / T - t * tries / T + 1 * two64) by lia.
  rewrite N.mod_add by (by unfold two64). apply N.mod_small. eapply N.le_lt_trans; [apply N.le_sub_l|done].
Qed.
Lemma share_sum tries T (trials : list (list (option nat))) : 0 < T -> T * tries < two64 -> forall k, k <= T -> N.of_nat (length trials) = k -> (forall t l, trials !! t = Some l -> length l = N.to_nat (shareOf tries T (N.of_nat t))) ->
  N.of_nat (length (concat trials)) = k * tries / T.
Proof.
  intros HT Hw. induction trials as [|l trials IH] using rev_ind; intros k Hk Hl Hs; [cbn in Hl; subst k; cbn; symmetry; apply N.div_0_l; lia|].
  rewrite app_length in Hl. cbn [length] in Hl. rewrite concat_app, app_length. cbn [concat]. rewrite app_nil_r. rewrite (Hs (length trials) l) by (rewrite lookup_app_r, Nat.sub_diag by lia; done).
  rewrite Nat2N.inj_add, N2Nat.id. rewrite (IH (k - 1)); [|lia|lia|intros t l' Hl'; apply Hs; by apply lookup_app_l_Some]. replace (N.of_nat (length trials)) with (k - 1) by lia.
  destruct (share_eq tries T (k - 1)) as [-> H]; [done|lia|done|]. replace (k - 1 + 1) with k in * by lia. lia.
Qed.
Lemma share_total tries T (trials : list (list (option nat))) : 0 < T -> T * tries < two64 -> N.of_nat (length trials) = T -> (forall t l, trials !! t = Some l -> length l = N.to_nat (shareOf tries T (N.of_nat t))) ->
  length (concat trials) = N.to_nat tries.
Proof. intros HT Hw Hl Hs. pose proof (share_sum tries T trials HT Hw T ltac:(lia) Hl Hs) as E. rewrite N.mul_comm, N.div_mul in E by lia. lia. Qed.

(** * The report *)
Local Open Scope nat_scope.
Lemma upTo_S trials i : trialsUpTo trials (S i) = trialsUpTo trials i + trialsWith trials (S i).
Proof.
  unfold trialsUpTo, trialsWith. induction (concat trials) as [|x l IH]; [done|]. cbn [List.filter]. destruct (decide (x = Some (S i))) as [->|Hne].
  - rewrite filter_cons_True by done. cbn [atMost]. rewrite Nat.leb_refl. replace (S i <=? i) with false by (symmetry; apply Nat.leb_gt; lia). cbn [length]. lia.
  - rewrite filter_cons_False by done. assert (atMost (S i) x = atMost i x) as ->; [|destruct (atMost i x); cbn [length]; lia]. destruct x as [k|]; [|done]. cbn [atMost].
    destruct (Nat.leb_spec k (S i)), (Nat.leb_spec k i); try done; try lia. exfalso. apply Hne. f_equal. lia.
Qed.
Lemma upTo_0 trials : trialsUpTo trials 0 = trialsWith trials 0.
Proof.
  unfold trialsUpTo, trialsWith. induction (concat trials) as [|x l IH]; [done|]. cbn [List.filter]. destruct (decide (x = Some 0)) as [->|Hne].
  - rewrite filter_cons_True by done. cbn. lia.
  - rewrite filter_cons_False by done. destruct x as [[|k]|]; done.
Qed.
Definition levelOf (good bad : nat) : level := if bad =? 0 then AtLeast else if good =? 0 then AtMost else Value.
Lemma report_from trials total acc W k : length acc = W -> (forall s, s < W -> acc !! s = Some (trialsWith trials s)) -> forall i good, good = (match i with 0 => 0 | S j => trialsUpTo trials j end) -> i + k <= W ->
  exists l, reportFrom k i good total acc = Some l /\ length l = k /\ forall j, j < k -> l !! j = Some (trialsUpTo trials (i + j), total - trialsUpTo trials (i + j), levelOf (trialsUpTo trials (i + j)) (total - trialsUpTo trials (i + j))).
Proof.
  intros Hl Ha. induction k as [|k IH]; intros i good Hg Hik; [exists []; split; [done|]; split; [done|]; lia|]. cbn [reportFrom]. rewrite Ha by lia. cbv zeta.
  assert (good + trialsWith trials i = trialsUpTo trials i) as ->. { subst good. destruct i as [|i]; [by rewrite upTo_0|by rewrite upTo_S]. }
  destruct (IH (S i) (trialsUpTo trials i) eq_refl ltac:(lia)) as (l & -> & Hl' & Hj). eexists. split; [done|]. split; [cbn; lia|]. intros [|j] Hjk; [by rewrite Nat.add_0_r|]. cbn [lookup list_lookup]. rewrite Hj by lia. by rewrite Nat.add_succ_r.
Qed.
Lemma sum_histo trials W : fitsColumns W trials -> sum_list (map (trialsWith trials) (seq 0 W)) = length (concat trials).
Proof.
  intros Hf. assert (exists d, concat trials = map Some d /\ Forall (fun s => s < W) d) as (d & E & Hd).
  { unfold fitsColumns in Hf. revert Hf. generalize (concat trials). induction l as [|x l IH]; intros Hf; [by exists []|]. destruct (Hf x ltac:(left)) as (s & -> & Hs). destruct IH as (d & -> & Hd); [intros y Hy; apply Hf; by right|]. exists (s :: d). split; [done|]. by constructor. }
  rewrite E, map_length, <- (histo_sum W d Hd). f_equal. unfold histo. apply map_ext. intros s. unfold trialsWith. rewrite E. apply filter_some.
Qed.
Lemma acc_is trials W acc : length acc = W -> (forall s, s < W -> acc !! s = Some (trialsWith trials s)) -> acc = map (trialsWith trials) (seq 0 W).
Proof.
  intros Hl Ha. apply list_eq. intros i. destruct (decide (i < W)) as [Hi|Hi]; [rewrite Ha, list_lookup_fmap, lookup_seq_lt by done; done|].
  rewrite !lookup_ge_None_2; [done|rewrite map_length, seq_length; lia|lia].
Qed.
Lemma report_ok trials W acc ss : fitsColumns W trials -> length acc = W -> (forall s, s < W -> acc !! s = Some (trialsWith trials s)) -> ss <= W ->
  exists l, report ss acc = Some l /\ length l = ss /\ forall i, i < ss -> let good := trialsUpTo trials i in let bad := length (concat trials) - good in l !! i = Some (good, bad, levelOf good bad).
Proof. intros Hf Hl Ha Hs. unfold report. replace (sum_list acc) with (length (concat trials)) by (rewrite <- (sum_histo trials W Hf); f_equal; symmetry; by apply acc_is). destruct (report_from trials (length (concat trials)) acc W ss Hl Ha 0 0 eq_refl ltac:(lia)) as (l & E & Hll & Hj). exists l. split; [exact E|]. split; [done|]. intros i Hi. cbv zeta. by rewrite Hj. Qed.
Lemma report_beyond_from total acc k : forall i good, length acc < i + k -> i <= length acc -> reportFrom k i good total acc = None.
Proof.
  induction k as [|k IH]; intros i good Hi Hle; [lia|]. cbn [reportFrom]. destruct (acc !! i) as [c|] eqn:E; [|done]. cbv zeta. apply lookup_lt_Some in E. rewrite IH by lia. done.
Qed.
Lemma report_beyond acc ss : length acc < ss -> report ss acc = None.
Proof. intros H. unfold report. apply report_beyond_from; lia. Qed.

(** Without threads the main thread waits for ever. *)
Lemma idle_run W total tr : 0 < total -> forall st st', mrun W 0 total st tr = Done st' -> todo st = [] -> phase st = Watch 0 (zeros W) -> phase st' = Watch 0 (zeros W).
Proof.
  intros Ht. induction tr as [|[t|] tr IH]; intros st st' E Htd Hp; cbn [mrun] in E; [by injection E as <-| |].
  - unfold workStep in E. rewrite Htd in E. done.
  - rewrite Hp in E. cbn [mainStep Nat.mul Nat.ltb Nat.leb] in E. change (0 <? 0) with false in E. cbv iota in E. rewrite sum_zeros in E. replace (0 =? total) with false in E by (symmetry; apply Nat.eqb_neq; lia). by eapply IH in E.
Qed.

(** * The sizes *)
Local Open Scope N_scope.
Lemma sizes_ok nStep nEnd : 1 <= nStep -> nEnd * 2 ^ nStep < two64 -> forall fuel n, 0 < n -> nEnd < n * 2 ^ N.of_nat fuel -> 
  exists l, sizesFrom (Datatypes.S fuel) nStep nEnd n = Done l /\ (forall k x, l !! k = Some x <-> x = n * 2 ^ (nStep * N.of_nat k) /\ x <= nEnd).
Proof.
  intros H1 Hw. assert (2 <= 2 ^ nStep) as H2 by (change 2 with (2 ^ 1) at 1; apply N.pow_le_mono_r; lia). induction fuel as [|f IH]; intros n Hn Hf.
  - cbn [sizesFrom]. change (2 ^ N.of_nat 0) with 1 in Hf. replace (n <=? nEnd) with false by (symmetry; apply N.leb_gt; lia). exists []. split; [done|]. intros k x. rewrite lookup_nil. split; [done|]. intros [-> Hx]. exfalso.
    assert (1 <= 2 ^ (nStep * N.of_nat k)) by (apply N.lt_pred_le, N.neq_0_lt_0, N.pow_nonzero; lia). nia.
  - change (sizesFrom (Datatypes.S (Datatypes.S f)) nStep nEnd n) with (if n <=? nEnd then match sizesFrom (Datatypes.S f) nStep nEnd (n * 2 ^ nStep mod two64) with Done l => Done (n :: l) | o => o end else Done []).
    destruct (N.leb_spec n nEnd) as [Hle|Hgt].
    + rewrite N.mod_small by nia. destruct (IH (n * 2 ^ nStep)) as (l & -> & Hl); [nia|rewrite Nat2N.inj_succ, N.pow_succ_r' in Hf; nia|]. exists (n :: l). split; [done|]. intros [|k] x.
      * cbn [lookup list_lookup]. rewrite N.mul_0_r. change (2 ^ 0) with 1. rewrite N.mul_1_r. split; [intros E; injection E as <-; done|]. by intros [-> _].
      * cbn [lookup list_lookup]. rewrite Hl. replace (n * 2 ^ nStep * 2 ^ (nStep * N.of_nat k)) with (n * 2 ^ (nStep * N.of_nat (Datatypes.S k))); [done|]. rewrite Nat2N.inj_succ, N.mul_succ_r, N.pow_add_r. lia.
    + exists []. split; [done|]. intros k x. rewrite lookup_nil. split; [done|]. intros [-> Hx]. exfalso. assert (1 <= 2 ^ (nStep * N.of_nat k)) by (apply N.lt_pred_le, N.neq_0_lt_0, N.pow_nonzero; lia). nia.
Qed.
Lemma sizes_zero nStep nEnd fuel : sizesFrom fuel nStep nEnd 0 = OutOfFuel.
Proof. induction fuel as [|f IH]; [done|]. cbn [sizesFrom]. replace (0 <=? nEnd) with true by (symmetry; apply N.leb_le; lia). rewrite N.mul_0_l, N.mod_0_l by (by unfold two64). by rewrite IH. Qed.
Lemma sizes_stuck nEnd n fuel : n <= nEnd -> n < two64 -> sizesFrom fuel 0 nEnd n = OutOfFuel.
Proof. intros H Hn. induction fuel as [|f IH]; [done|]. cbn [sizesFrom]. replace (n <=? nEnd) with true by (symmetry; by apply N.leb_le). change (2 ^ 0) with 1. rewrite N.mul_1_r, N.mod_small by done. by rewrite IH. Qed.
Lemma sizes_wrap n nStep nEnd fuel : n <= nEnd -> n * 2 ^ nStep mod two64 = 0 -> sizesFrom fuel nStep nEnd n = OutOfFuel.
Proof. intros H E. destruct fuel as [|f]; [done|]. cbn [sizesFrom]. replace (n <=? nEnd) with true by (symmetry; by apply N.leb_le). by rewrite E, sizes_zero. Qed.
