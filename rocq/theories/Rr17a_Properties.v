(** Property theorems about RR17a (C40 - C44, C77 - C79). *)
From Verif Require Import Base Dcw_Spec Rr17_Model Rr17_Spec Rr17_Proofs Rr17a_Model Rr17a_Spec Rr17a_Proofs.

(** Encodings to use in the examples: the OT input, the channel and the OT index can be read off a mask. *)
Definition exEncR (t i : nat) (x : N) : N := (x + 1) * 2 ^ 32 + N.of_nat t * 2 ^ 8 + N.of_nat i.
Definition exEncS (t i : nat) (x : N) : N := N.of_nat i * 2 ^ 16.
Definition exAes (x : N) : N := (x * 0x9e3779b97f4a7c15f39cc0605cedc835) mod 2 ^ 128.
Definition exP (hash : bool) (n nb cap T : nat) : params := mkParams hash exAes n nb cap 7 T exEncR exEncS.
Definition exRd (n nb cap T : nat) : rand :=
  mkRand (fun b i => N.of_nat (b + 3 * i)) (fun _ => rev (seq 0 cap)) (rev (seq 0 n)) (seq 0 n) (rev (seq 0 n)) (rev (places cap nb T)) (rev (seq 0 T)).

Lemma exRd_ok hash n nb cap T : randOk (exP hash n nb cap T) (exRd n nb cap T).
Proof. unfold randOk. cbn [rShuf rMaskPerm rOrdR rOrdS rPlaces rOut exRd pCap pN pNb pT exP]. repeat split; intros; rewrite <- ?Permutation_rev; done. Qed.

Definition paramsOkb (P : params) (l : list N) : bool :=
  bool_decide ((0 < pN P)%nat /\ (0 < pNb P)%nat /\ (0 < pCap P)%nat /\ (0 < pT P)%nat /\ pMask P <= 16 /\ N.of_nat (pNb P) * N.of_nat (pT P) < 2 ^ 64 /\
    length l = pN P /\ Forall (fun b => (load P l b <= pCap P)%nat) (seq 0 (pNb P))).
Lemma paramsOkb_ok P l : paramsOkb P l = true -> paramsOk P l.
Proof.
  intros H. apply bool_decide_eq_true in H as (H1 & H2 & H3 & H4 & H5 & H6 & H7 & H8). split; [done|]. split; [done|]. split; [done|]. split; [done|]. split; [done|]. split; [done|]. split; [done|].
  intros b. destruct (decide (b < pNb P)%nat) as [Hb|Hb].
  - rewrite Forall_forall in H8. apply H8, elem_of_seq. lia.
  - unfold load. assert (filter (fun x => itemBin P x = b) l = []) as ->; [|cbn; lia]. clear H7 H8.
    induction l as [|x l IH]; [done|]. rewrite filter_cons_False; [done|]. pose proof (itemBin_lt P x H2). lia.
Qed.

Definition exSetR : list N := [4; 9; 16; 25].
Definition exSetS : list N := [9; 7; 25; 2].

(** * C40 *)

Theorem C40_single_channel_complete P rd R S old i x : pT P = 1%nat -> paramsOk P R -> paramsOk P S -> randOk P rd -> NoDup R -> collisionFree P R ->
  R !! i = Some x -> x ∈ S -> exists new inR inS, rr17aRun P rd R S old = Done (mkResult (old ++ new) inR inS) /\ N.of_nat i ∈ new.
Proof. exact (run_complete P rd R S old i x). Qed.
Print Assumptions C40_single_channel_complete.
Example C40_example : paramsOk (exP true 4 4 3 1) exSetR /\ paramsOk (exP true 4 4 3 1) exSetS /\ randOk (exP true 4 4 3 1) (exRd 4 4 3 1) /\
  collisionFree (exP true 4 4 3 1) exSetR /\ rr17aRun (exP true 4 4 3 1) (exRd 4 4 3 1) exSetR exSetS [] = Done (mkResult [1; 3] exSetR exSetS).
Proof.
  split; [by apply paramsOkb_ok; vm_compute|]. split; [by apply paramsOkb_ok; vm_compute|]. split; [apply exRd_ok|].
  split; [by apply (bool_decide_unpack _); vm_compute|]. by vm_compute.
Qed.

(** * C41 *)

(** The same sets, encodings and random choices, two channels: common items are lost, since each thread looks only in its own
    [maskMap]. *)
Definition exRd2 : rand := mkRand (fun b i => N.of_nat (b + 3 * i)) (fun _ => rev (seq 0 3)) (seq 0 4) (seq 0 4) (rev (seq 0 4)) (rev (places 3 4 2)) [0; 1]%nat.
Theorem C41_channels_refuted : exists R S rd1 rd2, paramsOk (exP true 4 4 3 1) R /\ paramsOk (exP true 4 4 3 1) S /\ randOk (exP true 4 4 3 1) rd1 /\
  paramsOk (exP true 4 4 3 2) R /\ paramsOk (exP true 4 4 3 2) S /\ randOk (exP true 4 4 3 2) rd2 /\
  NoDup R /\ NoDup S /\ collisionFree (exP true 4 4 3 1) (remove_dups (R ++ S)) /\ collisionFree (exP true 4 4 3 2) (remove_dups (R ++ S)) /\
  rr17aRun (exP true 4 4 3 1) rd1 R S [] = Done (mkResult [1; 3] R S) /\ rr17aRun (exP true 4 4 3 2) rd2 R S [] = Done (mkResult [] R S).
Proof.
  exists exSetR, exSetS, (exRd 4 4 3 1), exRd2.
  split; [by apply paramsOkb_ok; vm_compute|]. split; [by apply paramsOkb_ok; vm_compute|]. split; [apply exRd_ok|].
  split; [by apply paramsOkb_ok; vm_compute|]. split; [by apply paramsOkb_ok; vm_compute|]. split.
  { unfold randOk, exRd2. cbn [rShuf rMaskPerm rOrdR rOrdS rPlaces rOut pCap pN pNb pT exP]. repeat split; intros; rewrite <- ?Permutation_rev; done. }
  split; [by apply (bool_decide_unpack _); vm_compute|]. split; [by apply (bool_decide_unpack _); vm_compute|].
  split; [by apply (bool_decide_unpack _); vm_compute|]. split; [by apply (bool_decide_unpack _); vm_compute|]. split; by vm_compute.
Qed.
Print Assumptions C41_channels_refuted.

(** What holds for any number of channels: nothing is reported that is not common, and nothing twice. Missing: that every
    common item is reported. *)
Theorem C41_channels_partial P rd R S old : paramsOk P R -> paramsOk P S -> randOk P rd -> NoDup R -> collisionFree P (remove_dups (R ++ S)) ->
  exists new inR inS, rr17aRun P rd R S old = Done (mkResult (old ++ new) inR inS) /\ new ⊆+ commonPositions R S.
Proof. exact (run_sub P rd R S old). Qed.
Print Assumptions C41_channels_partial.
(** Two channels and a schedule with which both items are found. *)
Example C41_example : paramsOk (exP true 4 4 3 2) exSetR /\ paramsOk (exP true 4 4 3 2) exSetS /\ randOk (exP true 4 4 3 2) (exRd 4 4 3 2) /\
  collisionFree (exP true 4 4 3 2) (remove_dups (exSetR ++ exSetS)) /\
  rr17aRun (exP true 4 4 3 2) (exRd 4 4 3 2) exSetR exSetS [8] = Done (mkResult [8; 1; 3] exSetR exSetS).
Proof.
  split; [by apply paramsOkb_ok; vm_compute|]. split; [by apply paramsOkb_ok; vm_compute|]. split; [apply exRd_ok|].
  split; [by apply (bool_decide_unpack _); vm_compute|]. by vm_compute.
Qed.

(** * C42 *)

(** Three items, so three bins and a shift by two bits: the items 0 and 3. *)
Theorem C42_phase_refuted : exists n u v, u < 2 ^ 128 /\ v < 2 ^ 128 /\ binOf n u = binOf n v /\ shiftRight u (phase n) = shiftRight v (phase n) /\ u <> v.
Proof. exists 3%nat, 0, 3. repeat split; by vm_compute. Qed.
Print Assumptions C42_phase_refuted.

(** With as many bins as items, exactly the powers of two are fine. *)
Theorem C42_phase_iff n : (0 < n)%nat -> N.of_nat n < 2 ^ 64 ->
  (forall u v, u < 2 ^ 128 -> v < 2 ^ 128 -> binOf n u = binOf n v -> shiftRight u (phase n) = shiftRight v (phase n) -> u = v) <->
  exists k, N.of_nat n = 2 ^ k.
Proof. exact (phase_iff n). Qed.
Print Assumptions C42_phase_iff.
(** Both cases occur. *)
Example C42_iff_example : N.of_nat 8 = 2 ^ 3 /\ ~ exists k, N.of_nat 12 = 2 ^ k.
Proof.
  split; [done|]. intros [k Hk]. assert (k < 4 \/ 4 <= k) as [H|H] by lia.
  - assert (2 ^ k <= 2 ^ 3) as H3 by (apply N.pow_le_mono_r; lia). rewrite <- Hk in H3. vm_compute in H3. by apply H3.
  - assert (2 ^ 4 <= 2 ^ k) as H3 by (apply N.pow_le_mono_r; lia). rewrite <- Hk in H3. vm_compute in H3. by apply H3.
Qed.

(** Whenever the shift drops no more than the bin number holds. *)
Theorem C42_phase_partial n nb u v : (0 < nb)%nat -> N.of_nat n <= 2 ^ 64 -> 2 ^ phase n <= N.of_nat nb -> u < 2 ^ 128 -> v < 2 ^ 128 ->
  binOf nb u = binOf nb v -> shiftRight u (phase n) = shiftRight v (phase n) -> u = v.
Proof. intros H1 H2 H3 H4 H5. exact (phase_inj nb (phase n) u v H4 H5 (phase_le_64 n H2) H1 H3). Qed.
Print Assumptions C42_phase_partial.
Example C42_example : 2 ^ phase 3 <= N.of_nat 5 /\ binOf 5 7 = binOf 5 12 /\ shiftRight 7 (phase 3) <> shiftRight 12 (phase 3).
Proof. by vm_compute. Qed.

(** The consequence for a run: an empty intersection and a reported item. The encodings of distinct OT inputs do not collide. *)
Theorem C42_run_refuted : exists R S out inR inS, paramsOk (exP false 3 3 3 1) R /\ paramsOk (exP false 3 3 3 1) S /\ randOk (exP false 3 3 3 1) (exRd 3 3 3 1) /\
  NoDup R /\ NoDup S /\ commonPositions R S = [] /\ collisionFree (exP false 3 3 3 1) R /\
  rr17aRun (exP false 3 3 3 1) (exRd 3 3 3 1) R S [] = Done (mkResult out inR inS) /\ out = [0].
Proof.
  exists [0; 1; 2], [3; 4; 5]. do 3 eexists. split; [by apply paramsOkb_ok; vm_compute|]. split; [by apply paramsOkb_ok; vm_compute|]. split; [apply exRd_ok|].
  split; [by apply (bool_decide_unpack _); vm_compute|]. split; [by apply (bool_decide_unpack _); vm_compute|]. split; [by vm_compute|].
  split; [by apply (bool_decide_unpack _); vm_compute|]. split; [vm_compute; reflexivity|done].
Qed.
Print Assumptions C42_run_refuted.

(** * C43 *)

(** Without hashing to a smaller domain both parties' input vectors are overwritten. *)
Theorem C43_inputs_refuted : exists P rd R S res, paramsOk P R /\ paramsOk P S /\ randOk P rd /\ pHash P = false /\
  rr17aRun P rd R S [] = Done res /\ resR res <> R /\ resS res <> S.
Proof.
  exists (exP false 4 4 3 1), (exRd 4 4 3 1), exSetR, exSetS. eexists. split; [by apply paramsOkb_ok; vm_compute|]. split; [by apply paramsOkb_ok; vm_compute|]. split; [apply exRd_ok|].
  split; [done|]. split; [vm_compute; reflexivity|]. done.
Qed.
Print Assumptions C43_inputs_refuted.

(** With hashing they are kept, whatever the run does. Missing: the other mode. *)
Theorem C43_inputs_partial P rd R S old res : pHash P = true -> rr17aRun P rd R S old = Done res \/ rr17aRun P rd R S old = Thrown res -> resR res = R /\ resS res = S.
Proof. exact (run_inputs P rd R S old res). Qed.
Print Assumptions C43_inputs_partial.
Example C43_example : rr17aRun (exP true 4 4 3 1) (exRd 4 4 3 1) exSetR exSetS [] = Done (mkResult [1; 3] exSetR exSetS) /\
  rr17aRun (exP true 4 4 3 1) (exRd 4 4 3 1) [1; 2] exSetS [] = Thrown (mkResult [] [1; 2] exSetS).
Proof. by vm_compute. Qed.

(** * C44 *)

(** [tr]: any order in which chunks are queued and completion callbacks run. *)
Theorem C44_buffer_release chunks tr : 0 < chunks < 2 ^ 32 -> validTrace tr -> N.of_nat (queues tr) <= chunks ->
  exists s, bufRun true chunks tr = Done s /\ bsFreed s = (if N.of_nat (completes tr) =? chunks then 1%nat else 0%nat) /\
    (bsFreed s <> 0%nat -> queues tr = completes tr).
Proof.
  intros H1 H2 H3. eexists. split; [exact (buf_preset chunks tr H1 H2 H3)|]. split; [done|]. cbn [bsFreed]. pose proof (validTrace_le tr H2) as L.
  destruct (N.of_nat (completes tr) =? chunks) eqn:E; [|done]. apply N.eqb_eq in E. intros _. lia.
Qed.
Print Assumptions C44_buffer_release.
Example C44_example : validTrace [Queue; Complete; Queue; Queue; Complete; Complete] /\
  bufRun true 3 [Queue; Complete; Queue; Queue; Complete; Complete] = Done (mkBufState 0 1) /\
  bufRun true 3 [Queue; Complete; Queue; Queue; Complete] = Done (mkBufState 1 0).
Proof. split; [|by vm_compute]. intros k. do 7 (destruct k as [|k]; [vm_compute; lia|]). cbn. lia. Qed.

(** * C77 *)

Theorem C77_single_channel_exact P rd R S old : pT P = 1%nat -> paramsOk P R -> paramsOk P S -> randOk P rd -> NoDup R -> collisionFree P (remove_dups (R ++ S)) ->
  exists new inR inS, rr17aRun P rd R S old = Done (mkResult (old ++ new) inR inS) /\ new ≡ₚ commonPositions R S.
Proof. exact (run_exact P rd R S old). Qed.
Print Assumptions C77_single_channel_exact.
Example C77_example : paramsOk (exP false 4 4 3 1) exSetR /\ paramsOk (exP false 4 4 3 1) exSetS /\ collisionFree (exP false 4 4 3 1) (remove_dups (exSetR ++ exSetS)) /\
  rr17aRun (exP false 4 4 3 1) (exRd 4 4 3 1) exSetR exSetS [] = Done (mkResult [1; 3] [1; 2; 4; 6] [2; 1; 6; 0]).
Proof.
  split; [by apply paramsOkb_ok; vm_compute|]. split; [by apply paramsOkb_ok; vm_compute|].
  split; [by apply (bool_decide_unpack _); vm_compute|]. by vm_compute.
Qed.

(** * C78 *)

(** What thread [t] of a party uses: every item of its bins once, no OT twice, each OT within those allotted to the item's bin. *)
Theorem C78_ot_slots P items ord draw shuf t : paramsOk P items -> ord ≡ₚ seq 0 (pN P) -> (forall b, shuf b ≡ₚ seq 0 (pCap P)) -> (t < pT P)%nat ->
  exists bins, mkBins P items ord = Some bins /\
    forall a, recvAssign (pCap P) draw bins (placesOf (pCap P) (pNb P) (pT P) t) (seq 0 (pCap P)) = Some a \/
              sendAssign shuf bins (placesOf (pCap P) (pNb P) (pT P) t) = Some a ->
      NoDup a.*2 /\ NoDup a.*1 /\
      (forall i, i ∈ a.*1 <-> exists x, items !! i = Some x /\ exists base, (t, itemBin P x, base) ∈ placesOf (pCap P) (pNb P) (pT P) t) /\
      (forall i s, (i, s) ∈ a -> exists x base, items !! i = Some x /\ (t, itemBin P x, base) ∈ placesOf (pCap P) (pNb P) (pT P) t /\ (base <= s < base + pCap P)%nat).
Proof. exact (ot_slots P items ord draw shuf t). Qed.
Print Assumptions C78_ot_slots.
Example C78_example : exists bins a b, mkBins (exP true 4 4 3 2) exSetR (seq 0 4) = Some bins /\
  recvAssign 3 (fun b i => 5) bins (placesOf 3 4 2 0) (seq 0 3) = Some a /\ a = [(0, 2); (2, 0); (1, 4); (3, 5)]%nat /\
  sendAssign (fun _ => [2; 0; 1]%nat) bins (placesOf 3 4 2 0) = Some b /\ b = [(0, 1); (2, 2); (1, 4); (3, 5)]%nat.
Proof. do 3 eexists. split; [vm_compute; reflexivity|]. split; [vm_compute; reflexivity|]. split; [done|]. split; [vm_compute; reflexivity|done]. Qed.

(** * C79 *)

(** Mask size of 40 bits statistical security and 1000 possible masks (twice the logarithm: 13.8): 7 bytes. The last key is read
    beyond the buffer. *)
Theorem C79_key_read_refuted : exists statSec twoLn num i, i < num /\ maskSizeOf statSec twoLn = 7 /\
  num * maskSizeOf statSec twoLn < keyReadEnd (maskSizeOf statSec twoLn) i.
Proof. exists 40, 13, 1000, 999. by vm_compute. Qed.
Print Assumptions C79_key_read_refuted.

(** Exactly the mask sizes from 8 bytes on are fine. *)
Theorem C79_key_read_partial maskSize num : 0 < num -> (forall i, i < num -> keyReadEnd maskSize i <= num * maskSize) <-> 8 <= maskSize.
Proof. exact (key_read maskSize num). Qed.
Print Assumptions C79_key_read_partial.
Example C79_example : maskSizeOf 40 30 = 9 /\ keyReadEnd 9 4 <= 5 * 9.
Proof. by vm_compute. Qed.
