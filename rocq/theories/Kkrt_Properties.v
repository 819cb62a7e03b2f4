(** Property theorems about the KKRT PSI (C21-C25, C62-C64). *)
From Verif Require Import Base CuckooIndex_Model CuckooIndex_Spec SimpleIndex_Spec Kkrt_Model Kkrt_Spec Kkrt_Proofs KkrtMain_Proofs.

(** * C62 *)

Theorem C62_sender_permutation n rnd : N.of_nat n < 2 ^ 32 ->
  exists pm iv, drawPermutation n rnd = Done (Some (pm, iv)) /\ permutationOf n pm iv.
Proof.
  intros H. destruct (drawPermutation_ok n rnd H) as (pm & iv & E & P & L & I). exists pm, iv. done.
Qed.
Print Assumptions C62_sender_permutation.
Example C62_example : drawPermutation 5 (fun i => N.of_nat (i * i + 7)) = Done (Some ([2; 1; 4; 3; 0]%nat, [4; 1; 0; 3; 2]%nat)).
Proof. vm_compute. reflexivity. Qed.

(** * C21 *)

(** [p]: cuckoo parameters of the receiver; [S], [R]: the two sets; [pm], [iv]: the sender's
    permutation; [sched]: any schedule under which the sender finishes. *)
Theorem C21_kkrt_intersection F enc seed junk ms p lim o pm iv S R sched g msgs c :
  legalParams p -> pStashSize p = 0%nat -> pNumBins p < 2 ^ 64 - 1 ->
  (length R <= pN p)%nat -> N.of_nat (pN p) < 2 ^ 56 ->
  recvInit p (mkKReceiver (constructed lim) []) = Done o ->
  insertItems (enc seed) (krIndex o) R 0 = Done c ->
  (0 < length S)%nat -> permutationOf (length S) pm iv ->
  senderInput F enc seed junk ms (pNumBins p) pm iv (length S) S sched = Done (Some (g, Sent msgs)) ->
  exists o', receiverInput F enc seed ms (length S) (length R) o R msgs = Done (o', []) /\
    (noFalseMatch F (enc seed) (pNumBins p) ms R S -> junkHarmless F (enc seed) junk (pNumBins p) ms R ->
       (forall i, i ∈ krIntersection o' -> exists x, R !! N.to_nat i = Some x /\ x ∈ S) /\
       (NoDup S -> NoDup (krIntersection o'))) /\
    (keysDistinct F (enc seed) (pNumBins p) ms R ->
       forall i x, R !! i = Some x -> x ∈ S -> N.of_nat i ∈ krIntersection o').
Proof. exact (kkrt_exact F enc seed junk ms p lim o pm iv S R sched g msgs c). Qed.
Print Assumptions C21_kkrt_intersection.

Definition exP : CuckooParam := mkParam 0 11 3 8.
Definition exF (b x : N) : N := b * 2 ^ 40 + x + 1.
Definition exEnc (seed x : N) : N := x * 0x9e3779b97f4a7c15f39cc0605cedc835 + seed.
Definition exR : list N := [3; 14; 15; 92; 65].
Definition exS : list N := [35; 92; 14; 7; 8; 9; 10; 11; 12; 65].
Definition exPm : list nat := [3; 0; 1; 9; 8; 2; 4; 7; 5; 6]%nat.
Definition exIv : list nat := [1; 2; 5; 0; 6; 8; 9; 7; 4; 3]%nat.
Definition exSched : list bool := replicate 3 false ++ [true; false; true] ++ replicate 1030 false.
Definition exJunk (i h : nat) : N := 2 ^ 80 - 1.

Lemma exPerm : permutationOf (length exS) exPm exIv.
Proof.
  split; [|split; [done|]].
  - apply (bool_decide_unpack _). vm_compute. done.
  - intros k x. split.
    + intros H. assert (k < 10)%nat as Hk by (apply lookup_lt_Some in H; exact H).
      split; [exact Hk|]. do 10 (destruct k as [|k]; [injection H as <-; reflexivity|]). lia.
    + intros [Hk H]. assert (x < 10)%nat as Hx' by (apply lookup_lt_Some in H; exact H).
      do 10 (destruct x as [|x]; [injection H as <-; reflexivity|]). lia.
Qed.
Lemma exBin x b : candidate (exEnc 5) 11 x b -> b < 11.
Proof. intros (j & _ & Hj). unfold mapsTo in Hj. subst b. apply N.mod_lt. done. Qed.
Lemma exSmall x : x ∈ exR ++ exS -> x < 100.
Proof.
  intros Hx. assert (Forall (fun x => x < 100) (exR ++ exS)) as Fa by (repeat constructor).
  rewrite Forall_forall in Fa. by apply Fa.
Qed.

Example C21_example :
  legalParams exP /\
  (exists o c g msgs o', recvInit exP (mkKReceiver (constructed 20) []) = Done o /\
    insertItems (exEnc 5) (krIndex o) exR 0 = Done c /\ permutationOf (length exS) exPm exIv /\
    senderInput exF exEnc 5 exJunk 10 11 exPm exIv (length exS) exS exSched = Done (Some (g, Sent msgs)) /\
    receiverInput exF exEnc 5 10 (length exS) (length exR) o exR msgs = Done (o', []) /\
    krIntersection o' = [3; 4; 1]) /\
  noFalseMatch exF (exEnc 5) 11 10 exR exS /\ junkHarmless exF (exEnc 5) exJunk 11 10 exR /\
  keysDistinct exF (exEnc 5) 11 10 exR.
Proof.
  assert (forall b x, b < 11 -> x < 100 -> exF b x mod 256 ^ 10 = b * 2 ^ 40 + x + 1) as HF.
  { intros b x ? ?. unfold exF. apply N.mod_small. change (256 ^ 10) with 1208925819614629174706176.
    change (2 ^ 40) with 1099511627776. lia. }
  split; [vm_compute; done|]. split; [|split; [|split]].
  - eexists _, _, _, _, _. split; [reflexivity|]. split; [vm_compute; reflexivity|]. split; [exact exPerm|].
    split; [vm_compute; reflexivity|]. split; vm_compute; reflexivity.
  - intros x y b b' Rx Sy Cx Cy E. apply exBin in Cx, Cy.
    assert (x < 100) by (apply exSmall, elem_of_app; auto). assert (y < 100) by (apply exSmall, elem_of_app; auto).
    rewrite !HF in E by done. change (2 ^ 40) with 1099511627776 in E. lia.
  - intros i h x b Rx Cx E. apply exBin in Cx. assert (x < 100) by (apply exSmall, elem_of_app; auto).
    rewrite HF in E by done. change (exJunk i h mod 256 ^ 10) with 1208925819614629174706175 in E.
    change (2 ^ 40) with 1099511627776 in E. lia.
  - intros x x' b b' Rx Rx' Cx Cx' E. apply exBin in Cx, Cx'.
    assert (x < 100) by (apply exSmall, elem_of_app; auto). assert (x' < 100) by (apply exSmall, elem_of_app; auto).
    rewrite !HF in E by done. change (2 ^ 40) with 1099511627776 in E. change (2 ^ 64) with 18446744073709551616 in E.
    rewrite !N.mod_small in E by lia. lia.
Qed.

(** * C63: the same for masks that are merely distinct *)

(** The receiver finds a mask by its first eight bytes and keeps only the first of two entries with the same key. *)
Theorem C63_distinct_masks_refuted : exists F enc seed junk ms p o c pm iv S R sched g msgs o' i x,
  masksDistinct F (enc seed) (pNumBins p) ms (R ++ S) /\ junkHarmless F (enc seed) junk (pNumBins p) ms R /\
  legalParams p /\ pStashSize p = 0%nat /\ recvInit p (mkKReceiver (constructed 20) []) = Done o /\
  insertItems (enc seed) (krIndex o) R 0 = Done c /\ permutationOf (length S) pm iv /\
  senderInput F enc seed junk ms (pNumBins p) pm iv (length S) S sched = Done (Some (g, Sent msgs)) /\
  receiverInput F enc seed ms (length S) (length R) o R msgs = Done (o', []) /\
  R !! i = Some x /\ x ∈ S /\ N.of_nat i ∉ krIntersection o'.
Proof.
  set (F := fun b x => (b * 100 + x + 1) * 2 ^ 64).
  assert (forall b x, b < 11 -> x < 100 -> F b x mod 256 ^ 10 = (b * 100 + x + 1) * 18446744073709551616) as HF.
  { intros b x ? ?. unfold F. apply N.mod_small. change (256 ^ 10) with 1208925819614629174706176.
    change (2 ^ 64) with 18446744073709551616. lia. }
  exists F, exEnc, 5, exJunk, 10, exP.
  eexists _, _. exists exPm, exIv, exS, exR, exSched. eexists _, _, _. exists 1%nat, 14.
  split; [|split; [|split; [vm_compute; done|split; [done|split; [reflexivity|split; [vm_compute; reflexivity|
    split; [exact exPerm|split; [vm_compute; reflexivity|split; [vm_compute; reflexivity|]]]]]]]]].
  - intros x x' b b' Rx Rx' Cx Cx' E. apply exBin in Cx, Cx'. apply exSmall in Rx, Rx'.
    rewrite !HF in E by done. lia.
  - intros i h x b Rx Cx E. apply exBin in Cx. assert (x < 100) by (apply exSmall, elem_of_app; auto).
    rewrite HF in E by done. change (exJunk i h mod 256 ^ 10) with 1208925819614629174706175 in E. lia.
  - split; [done|]. split; [apply (bool_decide_unpack _); vm_compute; done|apply (bool_decide_unpack _); vm_compute; done].
Qed.
Print Assumptions C63_distinct_masks_refuted.

(** * C64: empty sender set *)

(** The sender's first loop reads [mPermute[0]] before looking at the set size. *)
Theorem C64_empty_sender_set_refuted : exists F enc seed junk ms nb sched,
  0 < nb /\ nb < 2 ^ 64 - 1 /\ permutationOf 0 [] [] /\ senderInput F enc seed junk ms nb [] [] 0 [] sched = UB.
Proof.
  exists exF, exEnc, 5, exJunk, 10, 11, [true; false]. split; [done|]. split; [done|]. split; [|vm_compute; reflexivity].
  split; [done|]. split; [done|]. intros k x. split; [intros H; by apply lookup_nil in H || (rewrite lookup_nil in H)|lia].
Qed.
Print Assumptions C64_empty_sender_set_refuted.

(** * C22 *)

Theorem C22_schedule_independent F enc seed junk ms nb pm iv S sched :
  0 < nb -> nb < 2 ^ 64 - 1 -> (0 < length S)%nat -> permutationOf (length S) pm iv ->
  exists g e, senderInput F enc seed junk ms nb pm iv (length S) S sched = Done (Some (g, e)) /\
    forall msgs, e = Sent msgs ->
      length (concat msgs) = (3 * length S)%nat /\
      forall i idx h, pm !! i = Some idx -> (h < 3)%nat ->
        exists m, concat msgs !! (i * 3 + h)%nat = Some m /\ rightMask F (enc seed) junk nb ms S idx h m.
Proof.
  intros H0 H1 Hn P. destruct (sender_runs F enc seed junk ms nb pm iv S sched H0 H1 Hn P) as (g & e & E & _).
  exists g, e. split; [exact E|]. intros msgs ->. exact (sent_right F enc seed junk ms nb pm iv S sched g msgs H0 H1 Hn P E).
Qed.
Print Assumptions C22_schedule_independent.

Theorem C22_sender_terminates F enc seed junk ms nb pm iv S s1 s2 :
  0 < nb -> nb < 2 ^ 64 - 1 -> (0 < length S)%nat -> permutationOf (length S) pm iv ->
  2 * nb <= N.of_nat (length (filter (fun b => b = true) s1)) ->
  (1024 < length (filter (fun b => b = false) s2))%nat ->
  exists g msgs, senderInput F enc seed junk ms nb pm iv (length S) S (s1 ++ s2) = Done (Some (g, Sent msgs)).
Proof. exact (sender_finishes F enc seed junk ms nb pm iv S s1 s2). Qed.
Print Assumptions C22_sender_terminates.

(** Two schedules, the same masks. *)
Example C22_example :
  exists g g' msgs,
    senderInput exF exEnc 5 exJunk 10 11 exPm exIv (length exS) exS exSched = Done (Some (g, Sent msgs)) /\
    senderInput exF exEnc 5 exJunk 10 11 exPm exIv (length exS) exS (replicate 22 true ++ replicate 1025 false)
      = Done (Some (g', Sent msgs)).
Proof. eexists _, _, _. split; vm_compute; reflexivity. Qed.

(** * C23, C24 *)

(** [n] sender items, [nb] bins, [ms] bytes per mask. *)
Theorem C23_channel_clean_refuted : exists nb ms n,
  0 < nb /\ 0 < n /\ sentBy (senderActions nb ms n) ≠ receivedBy (receiverActions nb ms n).
Proof. exists 11, 10, 10. split; [done|]. split; [done|]. vm_compute. done. Qed.
Print Assumptions C23_channel_clean_refuted.

(** The rest: apart from the last, one-byte message all is received. *)
Theorem C23_channel_clean_partial nb ms n :
  sentBy (receiverActions nb ms n) = receivedBy (senderActions nb ms n) /\
  sentBy (senderActions nb ms n) = receivedBy (receiverActions nb ms n) ++ [DummyMsg 1].
Proof. exact (traces nb ms n). Qed.
Print Assumptions C23_channel_clean_partial.

Theorem C24_mask_framing ms n :
  maskStepsS (N.to_nat n) ms n 0 = maskStepsR ms n /\ bytesOf (maskStepsR ms n) = n * 3 * ms.
Proof. split; [exact (mask_equal ms n)|exact (mask_bytes ms n)]. Qed.
Print Assumptions C24_mask_framing.
Example C24_example : maskStepsR 10 2500 = [MaskMsg 30720; MaskMsg 30720; MaskMsg 13560] /\
  maskStepsS 2500 10 2500 0 = maskStepsR 10 2500.
Proof. split; vm_compute; reflexivity. Qed.

(** * C25 *)

(** A second run on the same object, sets without common item: the output still contains a position. *)
Theorem C25_repeated_runs_refuted : exists F enc seed ms p junk sched o1 g1 msgs1 o1' o2 g2 msgs2 o2' R1 S1 R2 S2 i,
  recvInit p (mkKReceiver (constructed 20) []) = Done o1 /\
  senderInput F enc seed junk ms (pNumBins p) [0%nat] [0%nat] 1 S1 sched = Done (Some (g1, Sent msgs1)) /\
  receiverInput F enc seed ms 1 1 o1 R1 msgs1 = Done (o1', []) /\
  recvInit p o1' = Done o2 /\
  senderInput F enc seed junk ms (pNumBins p) [0%nat] [0%nat] 1 S2 sched = Done (Some (g2, Sent msgs2)) /\
  receiverInput F enc seed ms 1 1 o2 R2 msgs2 = Done (o2', []) /\
  i ∈ krIntersection o2' /\ forall x, x ∈ R2 -> x ∉ S2.
Proof.
  exists exF, exEnc, 5, 10, exP, exJunk, exSched. eexists _, _, _, _, _, _, _, _. exists [65], [65], [3], [35], 0.
  split; [reflexivity|]. split; [vm_compute; reflexivity|]. split; [vm_compute; reflexivity|].
  split; [vm_compute; reflexivity|]. split; [vm_compute; reflexivity|]. split; [vm_compute; reflexivity|].
  split; [apply (bool_decide_unpack _); vm_compute; done|].
  intros x Hx. apply elem_of_list_singleton in Hx as ->. apply (bool_decide_unpack _); vm_compute; done.
Qed.
Print Assumptions C25_repeated_runs_refuted.

(** What holds: a run appends its own result, computed from the table at its start, to the old output. (A first run: C21.) *)
Theorem C25_repeated_runs_partial F enc seed ms n m c l inputs msgs o rest :
  receiverInput F enc seed ms n m (mkKReceiver c l) inputs msgs = Done (o, rest) ->
  exists out, receiverInput F enc seed ms n m (mkKReceiver c []) inputs msgs = Done (mkKReceiver (krIndex o) out, rest) /\
    krIntersection o = l ++ out.
Proof. exact (receiver_appends F enc seed ms n m c l inputs msgs o rest). Qed.
Print Assumptions C25_repeated_runs_partial.
Example C25_example : exists o1 o1', recvInit exP (mkKReceiver (constructed 20) []) = Done o1 /\
  receiverInput exF exEnc 5 10 1 1 (mkKReceiver (krIndex o1) [7]) [65] [[1; 2; 3]] = Done (o1', []) /\ krIntersection o1' = [7].
Proof. eexists _, _. split; [reflexivity|]. split; vm_compute; reflexivity. Qed.
