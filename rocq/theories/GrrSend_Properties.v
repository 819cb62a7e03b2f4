(** The GRR18 sender with freely announced loads (C216). *)
From Verif Require Import Base GrrSend_Model GrrSend_Spec GrrSend_Proofs.

(** * C216 *)
(** Whatever loads are announced and in whatever order the threads take their rows: the threads write, one after the other, each of the first rows once. The rows behind them, the
    padding, are not written at all; the memory is not initialised (Grr18MPsiSender.cpp:438). *)
Theorem C216_rows threads order surplus : order ≡ₚ seq 0 (length threads) ->
  map (fun u : nat * use => uRow u.2) (allUses threads order) = seq 0 (total (map pairsOf threads)) /\
  maskRows threads surplus = (total (map pairsOf threads) + surplus)%nat.
Proof. intros H. split; [exact (allUses_rows threads order H)|exact (maskRows_spec threads surplus)]. Qed.
Print Assumptions C216_rows.
(** The OTs are set up with a number that the receiver sends apart from the loads; the two are not compared. *)
Theorem C216_ots_refuted : exists threads totals order surplus, order ≡ₚ seq 0 (length threads) /\ length totals = length threads /\ (0 <= surplus)%Z /\
  senderMasks threads totals order surplus = UB.
Proof. exists [[(1, 2)]]%nat, [1%nat], [0%nat], 5%Z. repeat split; try done. Qed.
Print Assumptions C216_ots_refuted.
(** Exactly the announcements that fit are answered. *)
Theorem C216_ots_partial threads totals order surplus : order ≡ₚ seq 0 (length threads) -> (0 <= surplus)%Z ->
  (senderMasks threads totals order surplus = Done (allUses threads order) <-> forall t bins, threads !! t = Some bins -> covers (default 0%nat (totals !! t)) bins) /\
  (senderMasks threads totals order surplus <> Done (allUses threads order) -> senderMasks threads totals order surplus = UB).
Proof. exact (senderMasks_iff threads totals order surplus). Qed.
Print Assumptions C216_ots_partial.
(** A receiver that announces the sum of its loads fits. *)
Theorem C216_honest_partial n bins : (total (map snd bins) <= n)%nat -> covers n bins.
Proof. exact (enough_covers n bins). Qed.
Print Assumptions C216_honest_partial.
(** The OTs a thread uses: for each bin with an item of the sender those of the bin. *)
Theorem C216_which threads order t o : (exists r, (t, mkUse o r) ∈ allUses threads order) <->
  t ∈ order /\ exists before items load after, default [] (threads !! t) = before ++ (items, load) :: after /\ items <> 0%nat /\
    (total (map snd before) <= o < total (map snd before) + load)%nat.
Proof. exact (allUses_ots threads order t o). Qed.
Print Assumptions C216_which.
(** Two threads; the second takes its rows first. *)
Example C216_example : senderMasks [[(2, 3); (0, 4)]; [(1, 2); (1, 1)]]%nat [7; 3]%nat [1; 0]%nat 2 =
  Done [(1, mkUse 0 0); (1, mkUse 1 1); (1, mkUse 2 2); (0, mkUse 0 3); (0, mkUse 1 4); (0, mkUse 2 5); (0, mkUse 0 6); (0, mkUse 1 7); (0, mkUse 2 8)]%nat /\
  [1; 0]%nat ≡ₚ seq 0 2 /\ maskRows [[(2, 3); (0, 4)]; [(1, 2); (1, 1)]]%nat 2 = 11%nat /\ covers 3 [(2, 3); (0, 4)]%nat.
Proof.
  split; [by vm_compute|]. split; [apply perm_swap|]. split; [by vm_compute|]. intros b i l a E H1 H2. destruct b as [|x [|y b]]; cbn in E.
  - injection E as <- <- _. cbn. lia.
  - injection E as _ <- _. done.
  - injection E as _ _ E. by destruct b.
Qed.
