(** The theorems on the tables of GRR18. *)
From Coq Require Import Reals Lra Psatz.
From Verif Require Import Base Grr18_Model GrrNoise_Model GrrNoise_Spec GrrNoise_Proofs GrrTable_Model GrrTable_Spec GrrTable_Proofs GrrTable_Proofs3 GrrTable_Proofs4.
Local Open Scope N_scope.

(** C208: with a table, the load announced for a bin depends on its noisy size only, up to the size itself: it grows with the noisy size, is at least 8 and the size,
    and at most 57 or the size. *)
Theorem C208_load n m eps mx cap s v v' : hasTable n m eps = true -> s <= 255 -> (- 2 ^ 31 <= v)%Z -> (v <= v')%Z -> (v' < 2 ^ 31)%Z ->
  exists a b, binLoad (tableCfg n m eps mx cap) (v - Z.of_N s) s = Done a /\ binLoad (tableCfg n m eps mx cap) (v' - Z.of_N s) s = Done b /\
    N.max 8 s <= a /\ a <= b /\ b <= N.max 57 s.
Proof. exact (table_load_mono n m eps mx cap s v v'). Qed.
Print Assumptions C208_load.
Example C208_load_example :
  binLoad (tableCfg 256 32 4000 35 35) (3 - 7) 7 = Done 9 /\ binLoad (tableCfg 256 32 4000 35 35) (8 - 7) 7 = Done 13 /\
  binLoad (tableCfg 256 32 4000 35 35) (-4 - 20) 20 = Done 20 /\ binLoad (tableCfg 256 32 500 35 35) (3 - 7) 7 = Done 28.
Proof. repeat split; vm_compute; reflexivity. Qed.
(** Every key has its table: 61 entries for the noisy sizes from -10. *)
Theorem C208_tables n m eps : hasTable n m eps = true -> exists l, tableOf n m eps = Some ((-10)%Z, l) /\ length l = 61%nat /\
  (forall i j x y, (i <= j)%nat -> l !! i = Some x -> l !! j = Some y -> x <= y) /\ Forall (fun x => 8 <= x <= 57) l.
Proof.
  intros H. apply tableOf_has in H as [[st l] H]. destruct (tableOf_good n m eps st l H) as (-> & HL & HS & HF). exists l. repeat split; [done..| |done]. exact (sortedB_le l HS).
Qed.
Print Assumptions C208_tables.

(** C209: the expected number of bins that announce their exact size because the entry of the table is too small is at most [2^-40]. *)
(** Refuted: for every table it is more, whatever [get_bin_size] returns. *)
Theorem C209_exposed_refuted n m eps mx cap : hasTable n m eps = true -> (/ 2 ^ 40 < exposedBins n m eps (tableCfg n m eps mx cap))%R.
Proof. exact (exposed_many n m eps mx cap). Qed.
Print Assumptions C209_exposed_refuted.
(** What holds: at most [2^-24], [2^-29], [2^-31], [2^-33], [2^-34] for [eps] 4, 2, 1, 1/2 and less, if [get_bin_size] returns a size
    that a bin exceeds with an expectation of at most [2^-40]: no table is then cut. *)
Theorem C209_exposed_partial n m eps mx cap : hasTable n m eps = true -> (overflowBins n m mx <= / 2 ^ 40)%R ->
  (exposedBins n m eps (tableCfg n m eps mx cap) <=
   / 2 ^ (if decide (eps = 4000%N) then 24 else if decide (eps = 2000%N) then 29 else if decide (eps = 1000%N) then 31 else if decide (eps = 500%N) then 33 else 34))%R.
Proof.
  intros H HM. apply tableOf_has in H as [[st l] H]. rewrite <- expo_if. exact (exposed_few n m eps mx cap st l H (not_cut n m eps mx st l H HM)).
Qed.
Print Assumptions C209_exposed_partial.
(** For 256 items a load of 256 is never exceeded. *)
Example C209_example : hasTable 256 32 4000 = true /\ (overflowBins 256 32 256 <= / 2 ^ 40)%R /\
  (/ 2 ^ 40 < exposedBins 256 32 4000 (tableCfg 256 32 4000 35 35))%R /\ (exposedBins 256 32 4000 (tableCfg 256 32 4000 256 256) <= / 2 ^ 24)%R.
Proof.
  assert (overflowBins 256 32 256 <= / 2 ^ 40)%R as HO.
  { unfold overflowBins. rewrite rsum_zero; [rewrite Rmult_0_r; apply Rlt_le, Rinv_0_lt_compat, pow_lt; lra|]. intros k Hk. apply elem_of_seq in Hk. rewrite decide_False by lia. lra. }
  split; [vm_compute; reflexivity|]. split; [exact HO|]. split; [apply C209_exposed_refuted; vm_compute; reflexivity|].
  apply (C209_exposed_partial 256 32 4000 256 256); [vm_compute; reflexivity|exact HO].
Qed.

(** C162: with a sensitivity of 0 the buffer is 2. *)
Theorem C162_zero_sensitivity eps : computeBuffSize 40 eps 0 = Done 2.
Proof. exact (buff_zero eps). Qed.
Print Assumptions C162_zero_sensitivity.
