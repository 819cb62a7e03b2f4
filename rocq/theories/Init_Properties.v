(** Set-up phase of RR17a, RR17b, GRR18 and RR16: property theorems. *)
From stdpp Require Import sets.
From Verif Require Import Base Partition_Model Sched_Model Sched_Spec Threads_Model Threads_Proofs6 Threads_Properties Init_Model Init_Spec Init_Proofs Init_Proofs2.

(** The opening of the commitment is not checked: for every commitment scheme, a seed other than the committed one is accepted. *)
Theorem C136_opening_refuted commit s : exists p, (exists h, tossAgainst commit s p = Done h) /\
  forall o, o = peerSecond p (firstMsg commit s) s -> peerFirst p (firstMsg commit s) <> commit o.
Proof. exact (toss_unopened commit s). Qed.
(** So one peer gets any hash seed it likes, against every seed of the other party and every commitment scheme. *)
Theorem C136_force_refuted t : exists p, forall commit s, tossAgainst commit s p = Done t.
Proof. exact (toss_force t). Qed.
(** Two parties of the repository get the same seed. *)
Theorem C136_agree_partial commit s1 s2 : tossAgainst commit s1 (honestPeer commit s2) = tossAgainst commit s2 (honestPeer commit s1).
Proof. exact (toss_honest commit s1 s2). Qed.
(** Against such a party, each seed comes from exactly one own seed: the result is as random as the own seed. *)
Theorem C136_random_partial commit s2 t :
  exists s1, tossAgainst commit s1 (honestPeer commit s2) = Done t /\ forall s, tossAgainst commit s (honestPeer commit s2) = Done t -> s = s1.
Proof. exact (toss_random commit s2 t). Qed.
Print Assumptions C136_opening_refuted.
Print Assumptions C136_force_refuted.
Print Assumptions C136_agree_partial.
Print Assumptions C136_random_partial.
Example C136_example : tossAgainst (fun s => 7 * s + 3) 12 (honestPeer (fun s => 7 * s + 3) 10) = Done 6 /\
  tossAgainst (fun s => 7 * s + 3) 12 (mkPeer (fun _ => 0) (fun _ s => N.lxor s 99)) = Done 99.
Proof. vm_compute. done. Qed.

(** RR17a and GRR18: the base OTs of the receiver's OT receiver fit those of the sender's OT sender, and the other way round, and there are as many as asked for. *)
Theorem C137_both_ways baseOt kos count cs csS csR : correctOt baseOt -> correctKos kos ->
  length cs = 128%nat -> length csS = (count + 128)%nat -> length csR = count ->
  let '(r, s) := rr17aBase baseOt kos count cs csS csR in
  length (recvBase r) = count /\ otAgree (recvBase r) (sendBase s) /\ length (recvBase s) = count /\ otAgree (recvBase s) (sendBase r).
Proof. exact (rr17a_base baseOt kos count cs csS csR). Qed.
(** RR17b. *)
Theorem C137_one_way baseOt kos count cs csS : correctOt baseOt -> correctKos kos ->
  length cs = 128%nat -> length csS = count ->
  let '(r, s) := rr17bBase baseOt kos cs csS in length r = count /\ otAgree r s.
Proof. exact (rr17b_base baseOt kos count cs csS). Qed.
Print Assumptions C137_both_ways.
Print Assumptions C137_one_way.
(** OTs that number their messages; the extension adds the first messages of its base, and works only on 128 of them. *)
Example C137_example : correctOt (exOt 0) /\ correctKos exKos /\
  let '(r, s) := rr17aBase (exOt 0) exKos 2 (repeat true 128) (true :: false :: repeat true 128) [false; true] in
  recvBase r = [(1000, 1001); (1002, 1003)] /\ sendBase s = mkChosen [true; false] [1001; 1002] /\
  recvBase s = [(2004, 2005); (2006, 2007)] /\ sendBase r = mkChosen [false; true] [2004; 2007].
Proof.
  split; [intros cs; apply exOt_agree|]. split; [|vm_compute; done].
  intros pairs ch cs Hl _. unfold exKos. rewrite Hl, Nat.eqb_refl. apply exOt_agree.
Qed.

(** Every schedule of the set-up of RR17a and RR17b ends with all threads finished. *)
Theorem C138_rr17a P comm seed base ext :
  completes (initScripts (mkInit comm seed base ext (aT P) (aCount P) (aCount P))).
Proof. by apply init_completes. Qed.
Theorem C138_rr17b P comm seed base ext :
  completes (initScripts (mkInit comm seed base ext (bT P) (bCount P) (bCount P))).
Proof. by apply init_completes. Qed.
Theorem C138_grr18 P : completes (grr18InitScripts P).
Proof. exact (grr18_init_completes P). Qed.
Theorem C138_rr16 P : completes (rr16InitScripts P).
Proof. exact (rr16_init_completes P). Qed.
Print Assumptions C138_rr17a.
Print Assumptions C138_rr17b.
Print Assumptions C138_grr18.
Print Assumptions C138_rr16.
Definition exI : initP := mkInit 20 16 [(true, 3); (false, 4)] (fun i n => [(false, n); (true, n + 1)]) 3 (fun i => N.of_nat i) (fun i => N.of_nat i).
Example C138_example : option_map (@length _) (wholeRun (initScripts exI)) = Some 36%nat /\ option_map (@length _) (wholeRun (grr18InitScripts exI)) = Some 12%nat /\
  option_map (@length _) (wholeRun (rr16InitScripts exI)) = Some 12%nat.
Proof. vm_compute. done. Qed.

(** The number of OTs set up for a thread covers what it uses online: exactly in RR17a, *)
Theorem C139_rr17a P t : 0 < aStep P -> total (aCorr P t) = aCount P t.
Proof. exact (rr17a_counts P t). Qed.
(** and at both parties of RR17b, though they split the bins differently. *)
Theorem C139_rr17b P t : 0 < bStep P -> (t < bT P)%nat -> (bBins P + N.of_nat (bT P)) * N.of_nat (bT P) < two64 ->
  total (bCorrS P t) <= bCount P t /\ total (bCorrR P t) <= bCount P t.
Proof. exact (rr17b_counts P t). Qed.
Print Assumptions C139_rr17a.
Print Assumptions C139_rr17b.
Definition exB7 : rr17b := mkRr17b 2 7 5 3 1 1 3 (fun _ => []).
Example C139_example : total (aCorr exA 1) = 1 /\ aCount exA 1 = 1 /\
  map (fun t => (total (bCorrS exB7 t), total (bCorrR exB7 t), bCount exB7 t)) [0; 1; 2]%nat = [(15, 10, 15); (15, 10, 15); (5, 15, 15)].
Proof. vm_compute. done. Qed.
