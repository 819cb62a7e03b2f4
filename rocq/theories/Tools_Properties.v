(** Property theorems about concurrent bins, shuffles and work splitting (C10, C12, C13, C34, C46). *)
From Verif Require Import Base Tools_Spec SimpleHasher_Model SimpleHasher_Proofs Shuffle_Model Shuffle_Proofs
  Partition_Model Partition_Proofs.

(** * C10 *)

(** [work]: the pushes (bin, value) of each thread. *)
Theorem C10_concurrent_push bins cap h0 work sched :
  hInit bins cap = Done h0 ->
  Forall (fun p => (N.to_nat p.1 < bins)%nat) (concat work) ->
  (forall b, (length (valsTo b (concat work)) <= N.to_nat cap)%nat) ->
  exists h ts, pushRun h0 (map (mkPusher None) work) sched = Some (h, ts) /\
    (Forall (fun t => puPending t = None /\ puTodo t = []) ts ->
     forall b, getBin h b ≡ₚ if decide (b < bins)%nat then valsTo b (concat work) else []).
Proof. exact (push_concurrent bins cap h0 work sched). Qed.
Print Assumptions C10_concurrent_push.

Example C10_example :
  let work := [[(0, 10); (1, 11); (0, 12)]; [(0, 20); (1, 21)]] in
  let sched := concat (replicate 6 [0%nat; 1%nat]) in
  exists h0 h ts, hInit 2 3 = Done h0 /\
    (forall b, (length (valsTo b (concat work)) <= N.to_nat 3)%nat) /\
    pushRun h0 (map (mkPusher None) work) sched = Some (h, ts) /\
    Forall (fun t => puPending t = None /\ puTodo t = []) ts /\ getBin h 0 = [10; 20; 12].
Proof.
  eexists _, _, _. split; [reflexivity|]. split.
  { intros [|[|b]]; unfold valsTo; simpl; vm_compute; lia. }
  split; [vm_compute; reflexivity|]. split; [repeat constructor|vm_compute; reflexivity].
Qed.

(** * C12 *)

(** [std::shuffle] is assumed to permute its range. *)
Theorem C12_merge_shuffle {G} (blk : G -> N * G) (fresh : N -> G) (std : G -> list N -> list N * G) k g l :
  (forall g l, (std g l).1 ≡ₚ l) -> 2 <= k ->
  exists l' g', mergeShuffle blk fresh std k (length l) g l = Done (l', g') /\ l' ≡ₚ l.
Proof. intros H Hk. exact (mergeShuffle_ok blk fresh std H k (length l) Hk g l (le_n _)). Qed.
Print Assumptions C12_merge_shuffle.

(** A linear congruential generator, reversal as shuffle, threshold 4, 37 elements. *)
Definition exBlk (g : N) : N * N := let g' := (g * 0x9e3779b97f4a7c15f39cc0605cedc835 + 12345) mod 2 ^ 128 in (g', g').
Example C12_example :
  exists l' g', mergeShuffle exBlk (fun s => s) (fun g l => (rev l, g)) 4 37 42 (map N.of_nat (seq 0 37)) = Done (l', g')
    /\ l' ≠ map N.of_nat (seq 0 37) /\ (forall g l, ((fun (g : N) l => (rev l, g)) g l).1 ≡ₚ (l : list N)).
Proof.
  eexists _, _. split; [vm_compute; reflexivity|]. split; [done|]. intros g l. simpl. symmetry. apply Permutation_rev.
Qed.

(** * C13 *)

(** The expected result of thread [t]'s call: its slice is what [mergeShuffle] makes of it. *)
Definition shufflesItsSlice {G} (blk : G -> N * G) (fresh : N -> G) (std : G -> list N -> list N * G)
    (k : N) (l : list N) (t nt : N) : Prop :=
  forall l' s g, parallelShuffle blk fresh std k l t nt = Done l' ->
    mergeShuffle blk fresh std k (length l) (fresh t) (slice l t nt) = Done (s, g) -> slice l' t nt = s.

Theorem C13_parallel_shuffle_refuted :
  exists (G : Type) (blk : G -> N * G) (fresh : N -> G) std k l t nt,
    (forall g l, (std g l).1 ≡ₚ l) /\ 2 <= k /\ t < nt /\ ~ shufflesItsSlice blk fresh std k l t nt.
Proof.
  exists N, exBlk, (fun s => s), (fun g l => (rev l, g)), (2 ^ 20), [1; 2; 3; 4; 5; 6], 1, 2.
  split; [intros g l; simpl; symmetry; apply Permutation_rev|]. split; [done|]. split; [done|].
  intros S. specialize (S [1; 2; 3; 4; 5; 6] [6; 5; 4] 1). feed specialize S; [vm_compute; reflexivity..|].
  vm_compute in S. done.
Qed.
Print Assumptions C13_parallel_shuffle_refuted.

(** The call never changes anything. *)
Theorem C13_parallel_shuffle_noop_partial {G} (blk : G -> N * G) (fresh : N -> G) (std : G -> list N -> list N * G) k l t nt :
  (forall g l, (std g l).1 ≡ₚ l) -> 2 <= k -> 0 < nt -> t <= nt ->
  parallelShuffle blk fresh std k l t nt = Done l.
Proof. intros H. exact (parallel_noop blk fresh std H k l t nt). Qed.
Print Assumptions C13_parallel_shuffle_noop_partial.
Example C13_example :
  parallelShuffle exBlk (fun s => s) (fun g l => (rev l, g)) (2 ^ 20) [1; 2; 3; 4; 5] 0 2 = Done [1; 2; 3; 4; 5].
Proof. vm_compute. reflexivity. Qed.

(** * C34 *)

Theorem C34_even_split n T : 0 < T -> n * T < 2 ^ 64 ->
  concat (map (fun t => positions (evenSplit n T (N.of_nat t))) (seq 0 (N.to_nat T))) = seq 0 (N.to_nat n).
Proof. exact (even_cover n T). Qed.
Print Assumptions C34_even_split.

Theorem C34_ceil_split n T : 0 < T -> n + T < 2 ^ 64 -> T * ((n + T - 1) / T) < 2 ^ 64 ->
  concat (map (fun t => positions (ceilSplit n T (N.of_nat t))) (seq 0 (N.to_nat T))) = seq 0 (N.to_nat n).
Proof. exact (ceil_cover n T). Qed.
Print Assumptions C34_ceil_split.

Theorem C34_ot_split m T : 0 < T -> m * T < 2 ^ 64 ->
  concat (map (fun t => positions (otSplit m T (N.of_nat t))) (seq 0 (N.to_nat T))) = seq 0 (N.to_nat m).
Proof. exact (ot_cover m T). Qed.
Print Assumptions C34_ot_split.

Example C34_example :
  map (evenSplit 10 4) [0; 1; 2; 3] = [(0, 2); (2, 5); (5, 7); (7, 10)] /\
  map (ceilSplit 10 4) [0; 1; 2; 3] = [(0, 3); (3, 6); (6, 9); (9, 10)] /\
  map (otSplit 300 2) [0; 1] = [(0, 256); (256, 300)] /\
  map (ceilSplit 2 4) [0; 1; 2; 3] = [(0, 1); (1, 2); (2, 2); (3, 2)].
Proof. vm_compute. done. Qed.

(** * C46 *)

Theorem C46_rr17b_bin_split_refuted :
  exists B T t, 0 < T /\ t < T /\ B * T < 2 ^ 64 /\ rr17bSenderBins B T t ≠ rr17bReceiverBins B T t.
Proof. exists 10, 4, 1. vm_compute. done. Qed.
Print Assumptions C46_rr17b_bin_split_refuted.

(** They agree when the channel count divides the bin count (in particular for one channel). *)
Theorem C46_rr17b_bin_split_partial B T t :
  0 < T -> t < T -> B + T < 2 ^ 64 -> B * T < 2 ^ 64 -> (T | B) ->
  rr17bSenderBins B T t = rr17bReceiverBins B T t.
Proof. exact (rr17b_split_equal B T t). Qed.
Print Assumptions C46_rr17b_bin_split_partial.
Example C46_example : (4 | 12) /\ rr17bSenderBins 12 4 2 = (6, 9).
Proof. split; [by exists 3|reflexivity]. Qed.
