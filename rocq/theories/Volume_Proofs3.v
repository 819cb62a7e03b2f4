(** Proofs about the traffic of KKRT and PRTY. *)
From Verif Require Import Base Partition_Model Sched_Model Sched_Spec Threads_Model Kkrt_Model Kkrt_Spec KkrtMain_Proofs Phases_Model Init_Spec Init_Proofs Volume_Spec Volume_Proofs Volume_Proofs2.

Lemma corr_bytes nb fuel : forall i, i <= nb -> nb <= i + N.of_nat fuel -> total (map msgSize (corrStepsS fuel nb i)) = nb - i.
Proof.
  induction fuel as [|f IH]; intros i Hi Hf; cbn [corrStepsS map]; [change (total []) with 0; lia|].
  destruct (N.ltb_spec i nb) as [L|L]; cbn [map]; [|change (total []) with 0; lia]. rewrite total_cons, IH by lia. cbn [msgSize]. lia.
Qed.
Lemma mask_sizes ms n : total (map msgSize (maskStepsR ms n)) = n * 3 * ms.
Proof.
  rewrite <- mask_bytes. unfold bytesOf, maskStepsR. induction (seq _ _) as [|x l IH]; [done|]. cbn [map foldr] in *. rewrite total_cons, IH. done.
Qed.
Lemma vol_recvs p ks : forall j, vol p (kRecvs j ks) = 0.
Proof. induction ks as [|k ks IH]; intros j; [done|]. cbn [kRecvs]. rewrite !vol_cons, IH. done. Qed.
Lemma kkrt_traffic P : sendsInAll (kkrtScripts P)
  (17 + said true (kBase P) + said true (kOprf P) + 3 * kMaskS P * kNS P) (16 + said false (kBase P) + said false (kOprf P) + kBinsR P).
Proof.
  apply vol_finished; unfold kkrtScripts; cbn [map]; rewrite !total_cons; unfold kMain, kThread, kReceiver, kSeeds; vols; rewrite ?vol_recvs; change (total []) with 0.
  - unfold kMasksS. rewrite mask_equal, mask_sizes. lia.
  - unfold kCorrR. rewrite corr_equal, corr_bytes by lia. lia.
Qed.

(** ** PRTY *)

Definition workSum (ws : list work) : N := total (map (fun w => total (wSend w)) ws).
Lemma vol_worker p q w : vol p (worker q w) = if Bool.eqb q p then total (wSend w) else 0.
Proof. unfold worker. vols. lia. Qed.
Lemma vol_main p q n ws : vol p (mainOf q n ws) = 0.
Proof. unfold mainOf. induction (seq 0 n) as [|k l IH]; [done|]. cbn [map concat]. rewrite vol_app, IH. done. Qed.
Lemma vol_party p q n ws : total (map (vol p) (party q n ws)) = if Bool.eqb q p then workSum ws else 0.
Proof.
  unfold party, workSum. cbn [map]. rewrite total_cons, vol_main. induction ws as [|w ws IH]; [by destruct (Bool.eqb q p)|]. cbn [map] in *.
  rewrite !total_cons, vol_worker. destruct (Bool.eqb q p); lia.
Qed.
Lemma workSum_app l1 l2 : workSum (l1 ++ l2) = workSum l1 + workSum l2.
Proof. unfold workSum. by rewrite map_app, total_app. Qed.
Lemma workSum_threads P f : workSum (threads P f) = perThread (pT P) (fun t => total (wSend (f t))).
Proof. unfold workSum, threads, perThread. by rewrite map_map. Qed.
Lemma twice_sum (f : N * N -> N) l : total (concat (map (fun c => [f c; f c]) l)) = 2 * total (map f l).
Proof. induction l as [|c l IH]; [done|]. cbn [map concat app]. rewrite !total_cons, IH. lia. Qed.
Lemma prty_traffic P poly mask : (forall k, polyLen P k = k * poly) -> (forall k, maskLen P k = k * mask) -> (0 < pT P)%nat -> 0 < pStep P -> 0 < pMaskStep P ->
  pBinsR P * N.of_nat (pT P) < two64 -> pNS P * N.of_nat (pT P) < two64 -> sendsInAll (outScripts P) (2 * mask * pNS P) (poly * pBinsR P).
Proof.
  intros Hp Hm HT Hs Hms HB HN. apply vol_finished; unfold outScripts, outS, outR; rewrite map_app, total_app, !vol_party; cbn [Bool.eqb]; rewrite workSum_app, !workSum_threads; cbn [wSend].
  - rewrite (perThread_zero (pT P)) by done. rewrite (perThread_ext _ _ (fun t => 2 * mask * ((evenSplit (pNS P) (N.of_nat (pT P)) (N.of_nat t)).2 - (evenSplit (pNS P) (N.of_nat (pT P)) (N.of_nat t)).1))).
    2: { intros t _. unfold pMasks. rewrite twice_sum, (map_ext _ (fun c : N * N => c.2 * mask)) by (intros; apply Hm). rewrite pieces_mul by done. lia. }
    rewrite perThread_mul, even_sum by done. lia.
  - rewrite (perThread_zero (pT P) (fun t => total [])) by done. rewrite (perThread_ext _ _ (fun t => poly * ((evenSplit (pBinsR P) (N.of_nat (pT P)) (N.of_nat t)).2 - (evenSplit (pBinsR P) (N.of_nat (pT P)) (N.of_nat t)).1))).
    2: { intros t _. unfold pPolys. rewrite (map_ext _ (fun c : N * N => c.2 * poly)) by (intros; apply Hp). rewrite pieces_mul by done. lia. }
    rewrite perThread_mul, even_sum by done. lia.
Qed.
