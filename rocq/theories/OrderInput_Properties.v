(** Property theorems about protocols that send the masks in the order of the input (C153 ECDH, C154 DCW, C155 DKT, C156 RR16). *)
From Verif Require Import Base Order_Spec OrderInput_Spec Order_Proofs OrderInput_Proofs.
From Verif Require Ecdh_Model Dcw_Model Dkt_Model Rr16_Model Ecdh_Properties Dcw_Properties Dkt_Properties Rr16_Properties.

(** * C153 (ECDH) *)

(** Two orders of the same set: whatever the randomness, the receiver sees the common item in different places. *)
Theorem C153_order_refuted : exists R S S', sameCommon R S S' /\
  forall (P : Type) (smul : P -> N -> P) pt enc roItem T a a' msg msg', (0 < T)%nat -> N.of_nat (length S) * N.of_nat T < 2 ^ 64 ->
    noMix (Ecdh_Model.sendPoint smul pt enc roItem a) R S -> noMix (Ecdh_Model.sendPoint smul pt enc roItem a') R S' ->
    ecdhSent smul pt enc roItem T a S = Some msg -> ecdhSent smul pt enc roItem T a' S' = Some msg' ->
    sightOf (Ecdh_Model.sendPoint smul pt enc roItem a) R (concat msg) <> sightOf (Ecdh_Model.sendPoint smul pt enc roItem a') R (concat msg').
Proof.
  exists [1; 3], [1; 2], [2; 1]. split; [exact swapped_common|]. intros P smul pt enc roItem T a a' msg msg' HT Hw N1 N2 E E'.
  rewrite (ecdh_order smul pt enc roItem T a [1; 2] msg HT Hw E), (ecdh_order smul pt enc roItem T a' [2; 1] msg' HT Hw E'). by apply swapped_differ.
Qed.
Print Assumptions C153_order_refuted.
(** The receiver sees its items exactly where they stand in the sender's input. *)
Theorem C153_places_partial {P} (smul : P -> N -> P) pt enc roItem T a R S msg :
  (0 < T)%nat -> N.of_nat (length S) * N.of_nat T < 2 ^ 64 -> noMix (Ecdh_Model.sendPoint smul pt enc roItem a) R S -> ecdhSent smul pt enc roItem T a S = Some msg ->
  sightOf (Ecdh_Model.sendPoint smul pt enc roItem a) R (concat msg) = map (mean R) S.
Proof. intros HT Hw HN E. rewrite (ecdh_order smul pt enc roItem T a S msg HT Hw E). by apply sight_map. Qed.
Print Assumptions C153_places_partial.
(** Missing: the shuffle. If the caller shuffles the set, two sets with the same common items give the same view, for a relabelled permutation. *)
Theorem C153_shuffled_partial R S S' : sameCommon R S S' -> exists h, relabels (length S) h /\
  forall (P : Type) (smul : P -> N -> P) pt enc roItem T a pm msg msg', pm ≡ₚ seq 0 (length S) -> (0 < T)%nat -> N.of_nat (length S) * N.of_nat T < 2 ^ 64 ->
    noMix (Ecdh_Model.sendPoint smul pt enc roItem a) R (S ++ S') ->
    ecdhSent smul pt enc roItem T a (reorder S pm) = Some msg -> ecdhSent smul pt enc roItem T a (reorder S' (map h pm)) = Some msg' ->
    sightOf (Ecdh_Model.sendPoint smul pt enc roItem a) R (concat msg) = sightOf (Ecdh_Model.sendPoint smul pt enc roItem a) R (concat msg').
Proof.
  intros Hc. destruct (shuffled_hidden R S S' Hc) as (h & Hh & Hv). exists h. split; [done|]. intros P smul pt enc roItem T a pm msg msg' Hp HT Hw HN E E'.
  destruct (reorder_ok R S S' h pm _ Hc Hh Hp HN) as (L1 & L2 & N1 & N2).
  rewrite (ecdh_order smul pt enc roItem T a (reorder S pm) msg HT ltac:(by rewrite L1) E), (ecdh_order smul pt enc roItem T a (reorder S' (map h pm)) msg' HT ltac:(by rewrite L2) E').
  rewrite !sight_map by done. symmetry. by apply Hv.
Qed.
Print Assumptions C153_shuffled_partial.
Example C153_example : let mask := Ecdh_Model.sendPoint Ecdh_Properties.exSmul Ecdh_Properties.exPt Ecdh_Properties.exId Ecdh_Properties.exRoItem 7 in
  noMix mask [1; 3] ([1; 2] ++ [2; 1]) /\
  (exists msg, ecdhSent Ecdh_Properties.exSmul Ecdh_Properties.exPt Ecdh_Properties.exId Ecdh_Properties.exRoItem 1 7 [1; 2] = Some msg /\ sightOf mask [1; 3] (concat msg) = [Some 1; None]) /\
  (exists msg, ecdhSent Ecdh_Properties.exSmul Ecdh_Properties.exPt Ecdh_Properties.exId Ecdh_Properties.exRoItem 1 7 [2; 1] = Some msg /\ sightOf mask [1; 3] (concat msg) = [None; Some 1]).
Proof. split; [apply noMix_check; by vm_compute|]. split; eexists; split; vm_compute; reflexivity. Qed.

(** * C154 (DCW) *)

(** Two orders of the same set: whatever the randomness, the receiver sees the common item in different places. *)
Theorem C154_order_refuted : exists R S S', sameCommon R S S' /\
  forall aes prng s s' corr corr' msg msg',
    noMix (dcwMask aes prng s corr) R S -> noMix (dcwMask aes prng s' corr') R S' ->
    Dcw_Model.senderMasks aes prng s S corr = Done msg -> Dcw_Model.senderMasks aes prng s' S' corr' = Done msg' ->
    sightOf (dcwMask aes prng s corr) R msg <> sightOf (dcwMask aes prng s' corr') R msg'.
Proof.
  exists [1; 3], [1; 2], [2; 1]. split; [exact swapped_common|]. intros aes prng s s' corr corr' msg msg' N1 N2 E E'.
  rewrite (dcw_order aes prng s [1; 2] corr msg E), (dcw_order aes prng s' [2; 1] corr' msg' E'). by apply swapped_differ.
Qed.
Print Assumptions C154_order_refuted.
(** The receiver sees its items exactly where they stand in the sender's input. *)
Theorem C154_places_partial aes prng s corr R S msg :
  noMix (dcwMask aes prng s corr) R S -> Dcw_Model.senderMasks aes prng s S corr = Done msg ->
  sightOf (dcwMask aes prng s corr) R msg = map (mean R) S.
Proof. intros HN E. rewrite (dcw_order aes prng s S corr msg E). by apply sight_map. Qed.
Print Assumptions C154_places_partial.
(** Missing: the shuffle. If the caller shuffles the set, two sets with the same common items give the same view, for a relabelled permutation. *)
Theorem C154_shuffled_partial R S S' : sameCommon R S S' -> exists h, relabels (length S) h /\
  forall aes prng s corr pm msg msg', pm ≡ₚ seq 0 (length S) ->
    noMix (dcwMask aes prng s corr) R (S ++ S') ->
    Dcw_Model.senderMasks aes prng s (reorder S pm) corr = Done msg -> Dcw_Model.senderMasks aes prng s (reorder S' (map h pm)) corr = Done msg' ->
    sightOf (dcwMask aes prng s corr) R msg = sightOf (dcwMask aes prng s corr) R msg'.
Proof.
  intros Hc. destruct (shuffled_hidden R S S' Hc) as (h & Hh & Hv). exists h. split; [done|]. intros aes prng s corr pm msg msg' Hp HN E E'. destruct (reorder_ok R S S' h pm _ Hc Hh Hp HN) as (L1 & L2 & N1 & N2).
  rewrite (dcw_order aes prng s _ corr msg E), (dcw_order aes prng s _ corr msg' E'). rewrite !sight_map by done. symmetry. by apply Hv.
Qed.
Print Assumptions C154_shuffled_partial.
Example C154_example : exists r s corr map masks, Dcw_Model.recvInit Dcw_Properties.exOt 2 3 77 88 Dcw_Properties.exChoices Dcw_Properties.exNewR = Some r /\
  Dcw_Model.sendInit Dcw_Properties.exOt 2 3 88 77 Dcw_Properties.exNewS = Some s /\
  Dcw_Model.recvFirst Dcw_Properties.exAes Dcw_Properties.exPrng r [1; 3] = Done (corr, map, masks) /\
  let mask := dcwMask Dcw_Properties.exAes Dcw_Properties.exPrng s corr in
  noMix mask [1; 3] ([1; 2] ++ [2; 1]) /\
  (exists msg, Dcw_Model.senderMasks Dcw_Properties.exAes Dcw_Properties.exPrng s [1; 2] corr = Done msg /\ sightOf mask [1; 3] msg = [Some 1; None]) /\
  (exists msg, Dcw_Model.senderMasks Dcw_Properties.exAes Dcw_Properties.exPrng s [2; 1] corr = Done msg /\ sightOf mask [1; 3] msg = [None; Some 1]).
Proof.
  eexists _, _, _, _, _. split; [vm_compute; reflexivity|]. split; [vm_compute; reflexivity|]. split; [vm_compute; reflexivity|]. cbv zeta.
  split; [apply noMix_check; by vm_compute|]. split; eexists; split; vm_compute; reflexivity.
Qed.

(** * C155 (DKT) *)

(** Two orders of the same set: whatever the randomness, the receiver sees the common item in different places. *)
Theorem C155_order_refuted : exists R S S', sameCommon R S S' /\
  forall D s s' T m1 m1' m2 m2' v v' msg msg', N.of_nat (length S) * N.of_nat T < 2 ^ 64 ->
    noMix (dktMask D s) R S -> noMix (dktMask D s') R S' ->
    Dkt_Model.sendInputS D s T S m1 m2 = Done (Some (v, msg)) -> Dkt_Model.sendInputS D s' T S' m1' m2' = Done (Some (v', msg')) ->
    sightOf (dktMask D s) R (concat (Dkt_Model.sTs msg)) <> sightOf (dktMask D s') R (concat (Dkt_Model.sTs msg')).
Proof.
  exists [1; 3], [1; 2], [2; 1]. split; [exact swapped_common|]. intros D s s' T m1 m1' m2 m2' v v' msg msg' Hw N1 N2 E E'.
  rewrite (dkt_order D s T [1; 2] m1 m2 v msg Hw E), (dkt_order D s' T [2; 1] m1' m2' v' msg' Hw E'). by apply swapped_differ.
Qed.
Print Assumptions C155_order_refuted.
(** The receiver sees its items exactly where they stand in the sender's input. *)
Theorem C155_places_partial D s T m1 m2 v R S msg :
  N.of_nat (length S) * N.of_nat T < 2 ^ 64 -> noMix (dktMask D s) R S -> Dkt_Model.sendInputS D s T S m1 m2 = Done (Some (v, msg)) ->
  sightOf (dktMask D s) R (concat (Dkt_Model.sTs msg)) = map (mean R) S.
Proof. intros Hw HN E. rewrite (dkt_order D s T S m1 m2 v msg Hw E). by apply sight_map. Qed.
Print Assumptions C155_places_partial.
(** Missing: the shuffle. If the caller shuffles the set, two sets with the same common items give the same view, for a relabelled permutation. *)
Theorem C155_shuffled_partial R S S' : sameCommon R S S' -> exists h, relabels (length S) h /\
  forall D s T m1 m2 v v' pm msg msg', pm ≡ₚ seq 0 (length S) -> N.of_nat (length S) * N.of_nat T < 2 ^ 64 ->
    noMix (dktMask D s) R (S ++ S') ->
    Dkt_Model.sendInputS D s T (reorder S pm) m1 m2 = Done (Some (v, msg)) -> Dkt_Model.sendInputS D s T (reorder S' (map h pm)) m1 m2 = Done (Some (v', msg')) ->
    sightOf (dktMask D s) R (concat (Dkt_Model.sTs msg)) = sightOf (dktMask D s) R (concat (Dkt_Model.sTs msg')).
Proof.
  intros Hc. destruct (shuffled_hidden R S S' Hc) as (h & Hh & Hv). exists h. split; [done|]. intros D s T m1 m2 v v' pm msg msg' Hp Hw HN E E'. destruct (reorder_ok R S S' h pm _ Hc Hh Hp HN) as (L1 & L2 & N1 & N2).
  rewrite (dkt_order D s T (reorder S pm) m1 m2 v msg ltac:(by rewrite L1) E), (dkt_order D s T (reorder S' (map h pm)) m1 m2 v' msg' ltac:(by rewrite L2) E').
  rewrite !sight_map by done. symmetry. by apply Hv.
Qed.
Print Assumptions C155_shuffled_partial.
Definition exMsg1 := Dkt_Model.recvFirst Dkt_Properties.E11 Dkt_Properties.r11 [[1]; [3]].
Example C155_example : let mask := dktMask Dkt_Properties.E11 Dkt_Properties.s11 in
  noMix mask [1; 3] ([1; 2] ++ [2; 1]) /\
  (exists v msg, Dkt_Model.sendInputS Dkt_Properties.E11 Dkt_Properties.s11 2 [1; 2] exMsg1 (Dkt_Model.recvSecond Dkt_Properties.E11 Dkt_Properties.r11 exMsg1) = Done (Some (v, msg)) /\
     sightOf mask [1; 3] (concat (Dkt_Model.sTs msg)) = [Some 1; None]) /\
  (exists v msg, Dkt_Model.sendInputS Dkt_Properties.E11 Dkt_Properties.s11 2 [2; 1] exMsg1 (Dkt_Model.recvSecond Dkt_Properties.E11 Dkt_Properties.r11 exMsg1) = Done (Some (v, msg)) /\
     sightOf mask [1; 3] (concat (Dkt_Model.sTs msg)) = [None; Some 1]).
Proof. split; [apply noMix_check; by vm_compute|]. split; eexists _, _; split; vm_compute; reflexivity. Qed.

(** * C156 (RR16) *)

(** Two orders of the same set: whatever the randomness, the receiver sees the common item in different places. *)
Theorem C156_order_refuted : exists R S S', sameCommon R S S' /\
  forall aes ro seed m nh T msgs msgs' sampled sampled' perm perm' msg msg', (0 < T)%nat -> N.of_nat (length S) * N.of_nat T < 2 ^ 64 ->
    noMix (rr16Mask aes ro seed m nh msgs perm) R S -> noMix (rr16Mask aes ro seed m nh msgs' perm') R S' ->
    Rr16_Model.senderRun aes ro seed m nh T (length S) msgs sampled S perm = Done (Some msg) ->
    Rr16_Model.senderRun aes ro seed m nh T (length S') msgs' sampled' S' perm' = Done (Some msg') ->
    sightOf (rr16Mask aes ro seed m nh msgs perm) R (concat msg) <> sightOf (rr16Mask aes ro seed m nh msgs' perm') R (concat msg').
Proof.
  exists [1; 3], [1; 2], [2; 1]. split; [exact swapped_common|]. intros aes ro seed m nh T msgs msgs' sampled sampled' perm perm' msg msg' HT Hw N1 N2 E E'.
  rewrite (rr16_order aes ro seed m nh T 2 msgs sampled [1; 2] perm msg HT Hw E), (rr16_order aes ro seed m nh T 2 msgs' sampled' [2; 1] perm' msg' HT Hw E'). by apply swapped_differ.
Qed.
Print Assumptions C156_order_refuted.
(** The receiver sees its items exactly where they stand in the sender's input. *)
Theorem C156_places_partial aes ro seed m nh T msgs sampled perm R S msg :
  (0 < T)%nat -> N.of_nat (length S) * N.of_nat T < 2 ^ 64 -> noMix (rr16Mask aes ro seed m nh msgs perm) R S ->
  Rr16_Model.senderRun aes ro seed m nh T (length S) msgs sampled S perm = Done (Some msg) ->
  sightOf (rr16Mask aes ro seed m nh msgs perm) R (concat msg) = map (mean R) S.
Proof. intros HT Hw HN E. rewrite (rr16_order aes ro seed m nh T _ msgs sampled S perm msg HT Hw E). by apply sight_map. Qed.
Print Assumptions C156_places_partial.
(** Missing: the shuffle. If the caller shuffles the set, two sets with the same common items give the same view, for a relabelled permutation. *)
Theorem C156_shuffled_partial R S S' : sameCommon R S S' -> exists h, relabels (length S) h /\
  forall aes ro seed m nh T msgs sampled perm pm msg msg', pm ≡ₚ seq 0 (length S) -> (0 < T)%nat -> N.of_nat (length S) * N.of_nat T < 2 ^ 64 ->
    noMix (rr16Mask aes ro seed m nh msgs perm) R (S ++ S') ->
    Rr16_Model.senderRun aes ro seed m nh T (length S) msgs sampled (reorder S pm) perm = Done (Some msg) ->
    Rr16_Model.senderRun aes ro seed m nh T (length S) msgs sampled (reorder S' (map h pm)) perm = Done (Some msg') ->
    sightOf (rr16Mask aes ro seed m nh msgs perm) R (concat msg) = sightOf (rr16Mask aes ro seed m nh msgs perm) R (concat msg').
Proof.
  intros Hc. destruct (shuffled_hidden R S S' Hc) as (h & Hh & Hv). exists h. split; [done|]. intros aes ro seed m nh T msgs sampled perm pm msg msg' Hp HT Hw HN E E'. destruct (reorder_ok R S S' h pm _ Hc Hh Hp HN) as (L1 & L2 & N1 & N2).
  rewrite (rr16_order aes ro seed m nh T _ msgs sampled _ perm msg HT Hw E), (rr16_order aes ro seed m nh T _ msgs sampled _ perm msg' HT Hw E').
  rewrite !sight_map by done. symmetry. by apply Hv.
Qed.
Print Assumptions C156_shuffled_partial.
Example C156_example : exists perm mp, Rr16_Model.recvFirst Rr16_Properties.exAes Rr16_Properties.exRo 5 40 3 1 2 60 Rr16_Properties.exZeros Rr16_Properties.exOnes Rr16_Properties.exRmsgs [1; 3] [0]%nat = Done (perm, mp) /\
  let mask := rr16Mask Rr16_Properties.exAes Rr16_Properties.exRo 5 40 3 Rr16_Properties.exSmsgs perm in
  let run S := Rr16_Model.senderRun Rr16_Properties.exAes Rr16_Properties.exRo 5 40 3 2 2 Rr16_Properties.exSmsgs Rr16_Properties.exSampled S perm in
  noMix mask [1; 3] ([1; 2] ++ [2; 1]) /\
  (exists msg, run [1; 2] = Done (Some msg) /\ sightOf mask [1; 3] (concat msg) = [Some 1; None]) /\
  (exists msg, run [2; 1] = Done (Some msg) /\ sightOf mask [1; 3] (concat msg) = [None; Some 1]).
Proof.
  eexists _, _. split; [vm_compute; reflexivity|]. cbv zeta.
  split; [apply noMix_check; by vm_compute|]. split; eexists; split; vm_compute; reflexivity.
Qed.
