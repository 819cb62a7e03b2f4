(** Property theorems about the measurement of stash sizes (C200, C201). *)
From Verif Require Import Base Measure_Model Measure_Spec Measure_Proofs Measure_Proofs2.
Local Open Scope nat_scope.

(** * C200: the watching loop ends exactly when all trials are counted, and the report counts every trial once *)
Lemma shared_total t T trials : (0 < T)%N -> (T * 2 ^ t < 2 ^ 64)%N -> sharedAs t T trials -> length (concat trials) = N.to_nat (2 ^ t).
Proof. intros HT Hw [Hl Hs]. apply (share_total (2 ^ t) T trials HT Hw Hl). intros k l Hk. pose proof (Hs k l Hk). lia. Qed.
(** In every schedule: what is printed are the numbers of trials with each stash size, although the main thread reads the counters one by one while the threads
    still count. *)
Theorem C200_counts_partial t T trials tr st acc : (0 < T)%N -> (T * 2 ^ t < 2 ^ 64)%N -> sharedAs t T trials -> fitsColumns 400 trials -> measure t trials tr = Done st -> prints st acc ->
  Forall (fun l => l = []) (todo st) /\ length acc = 400 /\ forall s, s < 400 -> acc !! s = Some (trialsWith trials s).
Proof. intros HT Hw Hs Hf E. unfold measure in E. rewrite <- (shared_total t T trials HT Hw Hs) in E. exact (printed_exact 400 ltac:(lia) trials Hf tr st acc E). Qed.
Print Assumptions C200_counts_partial.
(** When the threads are done, the main thread prints after at most three passes over the counters; no schedule meets undefined behaviour. *)
Theorem C200_ends_partial t T trials tr st : (0 < T)%N -> (T * 2 ^ t < 2 ^ 64)%N -> sharedAs t T trials -> fitsColumns 400 trials -> measure t trials tr = Done st -> Forall (fun l => l = []) (todo st) ->
  exists k st' acc, k <= 3 * (length trials * 400) + 3 /\ measure t trials (tr ++ replicate k None) = Done st' /\ prints st' acc.
Proof.
  intros HT Hw Hs Hf E Hd. unfold measure in *. rewrite <- (shared_total t T trials HT Hw Hs) in *. destruct (ends 400 ltac:(lia) trials Hf tr st E Hd) as (k & st' & acc & Hk & E' & Hp).
  exists k, st', acc. split; [exact Hk|]. split; [|done]. rewrite (mrun_app 400 trials tr _ _ st E). exact E'.
Qed.
Print Assumptions C200_ends_partial.
Theorem C200_safe_partial t T trials tr : (0 < T)%N -> (T * 2 ^ t < 2 ^ 64)%N -> sharedAs t T trials -> fitsColumns 400 trials -> measure t trials tr <> UB.
Proof. intros HT Hw Hs Hf. unfold measure. rewrite <- (shared_total t T trials HT Hw Hs). apply (no_ub 400 ltac:(lia) trials Hf). apply inv_start. Qed.
Print Assumptions C200_safe_partial.
(** The report: for each stash size the number of trials with at most that stash and with more, for up to 400 sizes. *)
Theorem C200_report_partial trials acc ss : fitsColumns 400 trials -> length acc = 400 -> (forall s, s < 400 -> acc !! s = Some (trialsWith trials s)) -> ss <= 400 ->
  exists l, report ss acc = Some l /\ length l = ss /\ forall i, i < ss -> let good := trialsUpTo trials i in let bad := length (concat trials) - good in
    l !! i = Some (good, bad, if bad =? 0 then AtLeast else if good =? 0 then AtMost else Value).
Proof. intros Hf Hl Ha Hs. exact (report_ok trials 400 acc ss Hf Hl Ha Hs). Qed.
Print Assumptions C200_report_partial.
(** Two threads, four trials, a schedule in which the main thread reads the first row before the first increment: it needs a second pass. *)
Definition exTrials : list (list (option nat)) := [[Some 0; Some 2]; [Some 0; Some 1]].
Definition exSched : list (option nat) := replicate 400 None ++ [Some 0; Some 0; Some 1] ++ replicate 400 None ++ [None; Some 1] ++ replicate 801 None ++ replicate 801 None.
Example C200_example : sharedAs 2 2 exTrials /\ fitsColumns 400 exTrials /\ (exists st acc, measure 2 exTrials exSched = Done st /\ prints st acc /\ take 4 acc = [2; 1; 1; 0] /\ report 3 acc = Some [(2, 2, Value); (3, 1, Value); (4, 0, AtLeast)]) /\
  exists st, measure 2 exTrials (take 804 exSched) = Done st /\ phase st = Watch 0 (zeros 400).
Proof.
  split; [split; [done|]; intros [|[|[|k]]] l E; try done; injection E as <-; by vm_compute|]. split.
  { intros x Hx. cbn in Hx. repeat (apply elem_of_cons in Hx as [->|Hx]; [eexists; split; [done|lia]|]). by apply elem_of_nil in Hx. }
  split; [eexists; eexists; split; [vm_compute; reflexivity|split; [vm_compute; reflexivity|by vm_compute]]|eexists; split; vm_compute; reflexivity].
Qed.

(** A table whose stash is full ([mStashSize] is 400): the counter with number 400 lies behind the row. *)
Theorem C200_full_refuted : exists t T trials tr, sharedAs t T trials /\ (forall x, x ∈ concat trials -> exists s, x = Some s /\ s <= 400) /\ measure t trials tr = UB.
Proof.
  exists 0%N, 1%N, [[Some 400]], [Some 0]. split; [split; [done|]; intros [|k] l E; [injection E as <-; by vm_compute|done]|]. split; [|by vm_compute].
  intros x Hx. apply elem_of_list_singleton in Hx as ->. exists 400. done.
Qed.
Print Assumptions C200_full_refuted.
(** With the option [encrypto] every first trial reads a variable without a value. *)
Theorem C200_encrypto_refuted t T trials k l : sharedAs t T trials -> trials !! k = Some (None :: l) -> measure t trials [Some k] = UB.
Proof. intros _ E. unfold measure, mrun, workStep, mstart. cbn [todo]. by rewrite E. Qed.
Print Assumptions C200_encrypto_refuted.
(** Without threads ([-x 0]) the main thread never prints. *)
Theorem C200_idle_refuted t tr st acc : measure t [] tr = Done st -> ~ prints st acc.
Proof.
  intros E Hp. unfold measure in E. assert (phase st = Watch 0 (zeros width)) as H; [|unfold prints in Hp; congruence]. eapply (idle_run width (N.to_nat (2 ^ t)) tr); [|exact E|done|done].
  assert (2 ^ t <> 0)%N by (apply N.pow_nonzero; lia). lia.
Qed.
Print Assumptions C200_idle_refuted.
(** With more than 400 columns to print ([-ss 401]) the report reads beyond the array. *)
Theorem C200_columns_refuted acc ss : length acc = 400 -> 400 < ss -> report ss acc = None.
Proof. intros Hl Hs. apply report_beyond. lia. Qed.
Print Assumptions C200_columns_refuted.
(** The share of a thread wraps when threads times trials exceed 64 bits: three threads and 2^63 trials. *)
Theorem C200_shares_refuted : exists t T, (t < 64)%N /\ (0 < T)%N /\ foldr N.add 0%N (map (fun k => shareOf (2 ^ t) T (N.of_nat k)) (seq 0 (N.to_nat T))) <> (2 ^ t)%N.
Proof. exists 63%N, 3%N. split; [done|]. split; [done|]. by vm_compute. Qed.
Print Assumptions C200_shares_refuted.

(** * C201: the sizes that are measured *)
(** Exactly the sizes [n * 2 ^ (nStep * k)] up to [nEnd], in this order. *)
Theorem C201_sizes_partial nStep nEnd n : (1 <= nStep)%N -> (nEnd * 2 ^ nStep < 2 ^ 64)%N -> (0 < n)%N ->
  exists l, sizesFrom 65 nStep nEnd n = Done l /\ forall k x, l !! k = Some x <-> x = (n * 2 ^ (nStep * N.of_nat k))%N /\ (x <= nEnd)%N.
Proof.
  intros H1 Hw Hn. apply (sizes_ok nStep nEnd H1 Hw 64 n Hn). change (N.of_nat 64) with 64%N. assert (1 <= 2 ^ nStep)%N by (apply N.lt_pred_le, N.neq_0_lt_0, N.pow_nonzero; lia). nia.
Qed.
Print Assumptions C201_sizes_partial.
Example C201_example : sizesFrom 65 2 4096 256 = Done [256; 1024; 4096]%N.
Proof. by vm_compute. Qed.
(** With [nStep] 0, with [n] 0, or when the product wraps to 0, the loop does not end. *)
Theorem C201_endless_refuted nStep nEnd n fuel : (n <= nEnd)%N -> (n < 2 ^ 64)%N -> nStep = 0%N \/ n = 0%N \/ (n * 2 ^ nStep mod 2 ^ 64 = 0)%N -> sizesFrom fuel nStep nEnd n = OutOfFuel.
Proof. intros Hn Hlt [-> |[-> |E]]; [by apply sizes_stuck|apply sizes_zero|by apply sizes_wrap]. Qed.
Print Assumptions C201_endless_refuted.
(** [-nn 62]: 2^62 * 4 is 0 in 64 bits. *)
Example C201_endless_example : (2 ^ 62 <= 2 ^ 62 /\ 2 ^ 62 < 2 ^ 64 /\ 2 ^ 62 * 2 ^ 2 mod 2 ^ 64 = 0)%N.
Proof. by vm_compute. Qed.
