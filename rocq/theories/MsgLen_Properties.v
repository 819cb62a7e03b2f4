(** Property theorems about messages of any size (C213). *)
From Verif Require Import Base MsgLen_Model MsgLen_Spec MsgLen_Proofs.
Local Open Scope nat_scope.

(** * C213: what is checked *)

(** ECDH, both parties: points. *)
Theorem C213_ecdh_points n sz : checks sz n (ecdhPoints n sz) (fun r => [r]) /\ staysInside (ecdhPoints n sz).
Proof. split; [exact (checkedMany_checks sz n)|exact (checks_inside _ _ _ _ (checkedMany_checks sz n))]. Qed.
Print Assumptions C213_ecdh_points.
(** ECDH receiver: masks of at least four bytes. *)
Theorem C213_ecdh_masks n sz : 4 <= sz -> checks sz n (ecdhMasks n sz) (fun e => [e.2]) /\ staysInside (ecdhMasks n sz).
Proof. intros H. split; [exact (ecdhMasks_checks sz n H)|exact (checks_inside _ _ _ _ (ecdhMasks_checks sz n H))]. Qed.
Print Assumptions C213_ecdh_masks.
(** The key of a mask is its first four (ECDH) or eight (PRTY) bytes. *)
Theorem C213_keys n sz buf l : 8 <= sz -> (ecdhMasks n sz buf = Done l -> Forall (fun e => e.1 = take 4 e.2) l) /\ (prtyMasks n sz buf = Done l -> Forall (fun e => e.1 = take 8 e.2) l).
Proof. intros H. split; [apply ecdhMasks_keys; lia|exact (maskReads_keys sz 8 n buf l H)]. Qed.
Print Assumptions C213_keys.
(** DKT sender: points of the receiver and its proofs. *)
Theorem C213_dkt_sender cur sz :
  checks sz (3 * cur) (dktTriples cur sz) (fun e => [e.1.1; e.1.2; e.2]) /\ staysInside (dktTriples cur sz) /\
  checks sz cur (dktPhis cur sz) (fun r => [r]) /\ staysInside (dktPhis cur sz).
Proof.
  split; [exact (dktTriples_checks sz cur)|]. split; [exact (checks_inside _ _ _ _ (dktTriples_checks sz cur))|].
  split; [exact (checkedMany_checks sz cur)|exact (checks_inside _ _ _ _ (checkedMany_checks sz cur))].
Qed.
Print Assumptions C213_dkt_sender.
(** DKT receiver: points of the sender. *)
Theorem C213_dkt_receiver cur sz : checks sz cur (dktPoints cur sz) (fun r => [r]) /\ staysInside (dktPoints cur sz).
Proof. split; [exact (checkedMany_checks sz cur)|exact (checks_inside _ _ _ _ (checkedMany_checks sz cur))]. Qed.
Print Assumptions C213_dkt_receiver.

Example C213_example :
  ecdhPoints 2 3 [1; 2; 3; 4; 5; 6]%N = Done [[1; 2; 3]; [4; 5; 6]]%N /\ ecdhPoints 2 3 [1; 2; 3; 4; 5]%N = Thrown [] /\
  ecdhMasks 1 5 [1; 2; 3; 4; 5]%N = Done [([1; 2; 3; 4], [1; 2; 3; 4; 5])]%N /\
  dktTriples 1 2 [1; 2; 3; 4; 5; 6]%N = Done [([1; 2], [3; 4], [5; 6])]%N /\ dktTriples 1 2 [1; 2; 3; 4; 5; 6; 7]%N = Thrown [] /\
  dktPhis 2 1 [8; 9]%N = Done [[8]; [9]]%N /\ dktPoints 1 2 [7]%N = Thrown [].
Proof. repeat split; vm_compute; reflexivity. Qed.

(** * C213: what is not checked *)

(** Exactly the messages that are too short are read behind their end. *)
Theorem C213_unchecked_partial bins coeffs cur sz :
  trusts sz (bins * coeffs) (prtyPolys bins coeffs sz) (fun r => [r]) /\ trusts sz coeffs (prtyBig coeffs sz) (fun r => [r]) /\
  (8 <= sz -> trusts sz cur (prtyMasks cur sz) (fun e => [e.2])) /\
  (forall buf, (sz <= length buf -> dktPhi sz buf = Done (take sz buf)) /\ (length buf < sz -> dktPhi sz buf = UB)).
Proof.
  split; [exact (readMany_trusts sz (bins * coeffs))|]. split; [exact (readMany_trusts sz coeffs)|]. split; [exact (maskReads_trusts sz 8 cur)|].
  exact (dktPhi_spec sz).
Qed.
Print Assumptions C213_unchecked_partial.
(** PRTY sender and receiver, DKT sender: for all sizes of a run an empty message is read behind its end. *)
Theorem C213_unchecked_refuted bins coeffs cur sz : 0 < bins -> 0 < coeffs -> 0 < cur -> 8 <= sz ->
  ~ staysInside (prtyPolys bins coeffs sz) /\ ~ staysInside (prtyBig coeffs sz) /\ ~ staysInside (prtyMasks cur sz) /\ ~ staysInside (dktPhi sz).
Proof.
  intros Hb Hc Hn Hs. split; [|split; [|split]].
  - apply (trusts_outside _ _ _ _ (readMany_trusts sz (bins * coeffs))). apply Nat.mul_pos_pos; [by apply Nat.mul_pos_pos|lia].
  - apply (trusts_outside _ _ _ _ (readMany_trusts sz coeffs)). apply Nat.mul_pos_pos; [done|lia].
  - apply (trusts_outside _ _ _ _ (maskReads_trusts sz 8 cur Hs)). apply Nat.mul_pos_pos; [done|lia].
  - intros H. apply (H []). apply dktPhi_spec. cbn. lia.
Qed.
Print Assumptions C213_unchecked_refuted.
Example C213_unchecked_example :
  prtyPolys 2 1 3 [1; 2; 3; 4; 5; 6; 7]%N = Done [[1; 2; 3]; [4; 5; 6]]%N /\ prtyPolys 2 1 3 [1; 2; 3; 4; 5]%N = UB /\
  prtyMasks 1 9 [1; 2; 3; 4; 5; 6; 7; 8; 9]%N = Done [([1; 2; 3; 4; 5; 6; 7; 8], [1; 2; 3; 4; 5; 6; 7; 8; 9])]%N /\ prtyMasks 1 9 [1; 2; 3; 4; 5; 6; 7; 8]%N = UB /\
  dktPhi 2 [5]%N = UB /\ dktPhi 2 [5; 6; 7]%N = Done [5; 6]%N.
Proof. repeat split; vm_compute; reflexivity. Qed.
