(** C198: how many bytes each party sends in all, in every execution that comes to its end, whatever the schedule. *)
From Verif Require Import Base Partition_Model Ecdh_Model Sched_Model Sched_Spec Threads_Proofs6 Threads_Model Threads2_Model Phases_Model Threads_Properties Threads2_Properties Phases_Properties Init_Spec Volume_Spec Volume_Proofs Volume_Proofs2 Volume_Proofs3.

(** Each theorem gives the traffic of the sender and then of the receiver. In ECDH, DKT, RR16, KKRT and PRTY the number of threads does not appear in it. *)
Theorem C198_ecdh P : (0 < eT P)%nat -> eNS P * N.of_nat (eT P) < 2 ^ 64 -> eNR P * N.of_nat (eT P) < 2 ^ 64 ->
  sendsInAll (ecdhScripts P) (eNS P * (ePt P + eMask (eNS P))) (eNR P * ePt P).
Proof. exact (ecdh_traffic P). Qed.
Theorem C198_dkt P : (0 < kT P)%nat -> Threads2_Model.kNS P * N.of_nat (kT P) < 2 ^ 64 -> Threads2_Model.kNR P * N.of_nat (kT P) < 2 ^ 64 ->
  sendsInAll (dktScripts P) (2 * kPt P + kNum P + Threads2_Model.kNS P * (2 * kPt P + 16)) (2 * kPt P + kNum P + Threads2_Model.kNR P * (3 * kPt P + kNum P)).
Proof. exact (dkt_traffic P). Qed.
Theorem C198_rr16 P : (0 < cT P)%nat -> cN P * N.of_nat (cT P) < 2 ^ 64 -> sendsInAll (rr16Scripts P) (cN P) (cBf P).
Proof. exact (rr16_traffic P). Qed.
Theorem C198_kkrt P : sendsInAll (kkrtScripts P)
  (17 + said true (kBase P) + said true (kOprf P) + 3 * kMaskS P * kNS P) (16 + said false (kBase P) + said false (kOprf P) + kBinsR P).
Proof. exact (kkrt_traffic P). Qed.
Theorem C198_prty P poly mask : (forall k, polyLen P k = k * poly) -> (forall k, maskLen P k = k * mask) -> (0 < pT P)%nat -> 0 < pStep P -> 0 < pMaskStep P ->
  pBinsR P * N.of_nat (pT P) < 2 ^ 64 -> pNS P * N.of_nat (pT P) < 2 ^ 64 -> sendsInAll (outScripts P) (2 * mask * pNS P) (poly * pBinsR P).
Proof. exact (prty_traffic P poly mask). Qed.
(** The OT conversations are counted for each thread. *)
Theorem C198_dcw P : (0 < wT P)%nat ->
  sendsInAll (dcwScripts P) (wSeed P + said true (wBase P) + perThread (wT P) (fun c => said true (wConv P (wNS P) c)) + 16 * wNS P)
    (wSeed P + said false (wBase P) + perThread (wT P) (fun c => said false (wConv P (wNR P) c)) + 192 * wNR P).
Proof. exact (dcw_traffic P). Qed.
Theorem C198_rr17a P : (0 < aT P)%nat -> 0 < aStep P -> aBins P * N.of_nat (aT P) < 2 ^ 64 ->
  sendsInAll (rr17aScripts P)
    (aBins P * aCap P + aN P * aCap P * aMask P + perThread (aT P) (fun t => said true (aChk1 P t) + said true (aChk2 P t)))
    (aBins P * aCap P + perThread (aT P) (fun t => said false (aChk1 P t) + said false (aChk2 P t))).
Proof. exact (rr17a_traffic P). Qed.
Theorem C198_rr17b P : (0 < bT P)%nat -> 0 < bStep P -> 0 < bChunk P -> bBins P * N.of_nat (bT P) < 2 ^ 64 ->
  bN P + N.of_nat (bT P) < 2 ^ 64 -> N.of_nat (bT P) * ((bN P + N.of_nat (bT P) - 1) / N.of_nat (bT P)) < 2 ^ 64 ->
  sendsInAll (rr17bScripts P) (bN P * bSet P + perThread (bT P) (fun t => said true (bChk P t))) (bBins P * bCap P + perThread (bT P) (fun t => said false (bChk P t))).
Proof. exact (rr17b_traffic P). Qed.
Theorem C198_grr18 P : (0 < gT P)%nat -> 0 < gStep P -> gBins P * N.of_nat (gT P) < 2 ^ 64 -> gRows P * N.of_nat (gT P) < 2 ^ 64 ->
  length (gLoadsS P) = N.to_nat (gBins P) -> length (gLoadsR P) = N.to_nat (gBins P) ->
  sendsInAll (grr18Scripts P)
    (16 * N.of_nat (gT P) + gBins P + sumN (gLoadsS P) + gRows P * gMask P + perThread (gT P) (fun t => gFin P true t + gChal P true t + gProof P true t))
    (8 * N.of_nat (gT P) + gBins P + sumN (gLoadsR P) + perThread (gT P) (fun t => gFin P false t + gChal P false t + gProof P false t)).
Proof. exact (grr18_traffic P). Qed.
Print Assumptions C198_ecdh.
Print Assumptions C198_dkt.
Print Assumptions C198_rr16.
Print Assumptions C198_kkrt.
Print Assumptions C198_prty.
Print Assumptions C198_dcw.
Print Assumptions C198_rr17a.
Print Assumptions C198_rr17b.
Print Assumptions C198_grr18.
(** Complete runs, and the traffic of their sends: 5 items with points of 33 bytes on 2 channels (each mask has [maskBytes 5] = 6 bytes), 130 items of DKT. *)
Definition sentIn (tr : list (nat * ev)) : N * N := let l := foldl (fun l e => effect e.2 l) [] tr in (traffic true l, traffic false l).
Example C198_example : option_map sentIn (wholeRun (ecdhScripts exE)) = Some (5 * (33 + eMask 5), 5 * 33) /\ eMask 5 = 6 /\
  option_map sentIn (wholeRun (dktScripts exK)) = Some (2 * 33 + 32 + 130 * (2 * 33 + 16), 2 * 33 + 32 + 130 * (3 * 33 + 32)) /\
  option_map sentIn (wholeRun (rr16Scripts exC)) = Some (5, 16) /\
  option_map sentIn (wholeRun (dcwScripts exW)) = Some (16 + 32 + 3 * 16 + 16 * 2, 16 + 48 + 384 + 192 * 2).
Proof. vm_compute. done. Qed.
Example C198_example_rr : option_map sentIn (wholeRun (rr17aScripts exA)) = Some (2 + 2 + 2 * 5, 2 + 2 * 6) /\
  option_map sentIn (wholeRun (rr17bScripts exB)) = Some (3 + 2 * 5, 4 + 2 * 6) /\
  option_map sentIn (wholeRun (grr18Scripts exG)) = Some (16 * 2 + 3 + 4 + 5 + 2 * 24, 8 * 2 + 3 + 4 + 2 * 24).
Proof. vm_compute. done. Qed.
Example C198_example_kkrt : option_map sentIn (wholeRun (kkrtScripts exKkrt)) = Some (17 + 32 + 8 + 3 * 9 * 1030, 16 + 48 + 64 + 2500).
Proof. vm_compute. done. Qed.
Example C198_example_prty : option_map sentIn (wholeRun (outScripts (exPrty 3 40))) = Some (2 * 9 * 50, 300 * 40).
Proof. vm_compute. done. Qed.
