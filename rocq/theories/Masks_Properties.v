(** Accidental matches of masks: properties C133 to C135. Masks of items that the other party does not hold are
    taken to be independent and uniform. *)
From Coq Require Import Reals.
From Verif Require Import Base BinProb_Spec Masks_Model Masks_Spec Masks_Proofs Masks_Proofs2 Masks_Proofs3 Masks_Proofs4.
From Verif Require Prty_Model.
Local Open Scope N_scope.

(** C133. KKRT, stated in full: the chance is at most [2^-ssp]. It can be almost twice as large, because the logarithm is rounded down. *)
Theorem C133_kkrt_refuted : exists ssp nS nR b own, kkrtMaskBytes ssp (N.of_nat nS) (N.of_nat nR) = Done b /\ length own = nR /\ NoDup own.*2 /\
  Forall (fun o => o.1 < 3 /\ o.2 < maskValues b)%nat own /\ chance_gt (maskValues b) (3 * nS) (tablePairs 3 nS own) 1 (2 ^ ssp).
Proof. exact kkrt_witness. Qed.
Print Assumptions C133_kkrt_refuted.
(** What is missing: the factor 2. *)
Theorem C133_kkrt_partial ssp nS nR b own : N.of_nat nS * N.of_nat nR < 2 ^ 64 -> kkrtMaskBytes ssp (N.of_nat nS) (N.of_nat nR) = Done b -> length own = nR ->
  chance_le (maskValues b) (3 * nS) (tablePairs 3 nS own) 2 (2 ^ ssp).
Proof. exact (kkrt_bound ssp nS nR b own). Qed.
Print Assumptions C133_kkrt_partial.
Example C133_case : kkrtMaskBytes 40 (N.of_nat 4) (N.of_nat 3) = Done 6 /\ chance_le (maskValues 6) (3 * 4) (tablePairs 3 4 [(0, 7); (2, 9); (1, 7)]%nat) 2 (2 ^ 40).
Proof. split; [reflexivity|]. apply (kkrt_bound 40 4 3); reflexivity. Qed.

(** C134. ECDH and PRTY with the security parameter given to init: the length is computed for 40. *)
Theorem C134_ecdh_refuted : exists ssp n b own, ecdhMaskBytes ssp (N.of_nat n) = Done b /\ length own = n /\ NoDup own /\
  Forall (fun v => v < maskValues b)%nat own /\ chance_gt (maskValues b) n (allPairs n own) 1 (2 ^ ssp).
Proof. exact ecdh_witness. Qed.
Print Assumptions C134_ecdh_refuted.
Theorem C134_prty_refuted : exists ssp nT nM b own, prtyMaskBytes ssp (N.of_nat nT) (N.of_nat nM) = Done b /\ length own = nM /\ NoDup own.*2 /\
  Forall (fun o => o.1 < 2 /\ o.2 < maskValues b)%nat own /\ chance_gt (maskValues b) (2 * nT) (tablePairs 2 nT own) 1 (2 ^ ssp).
Proof. exact prty_witness. Qed.
Print Assumptions C134_prty_refuted.
(** What is missing: parameters above 39. *)
Theorem C134_ecdh_partial ssp n b own : ssp <= 39 -> ecdhMaskBytes ssp (N.of_nat n) = Done b -> length own = n ->
  chance_le (maskValues b) n (allPairs n own) 1 (2 ^ ssp).
Proof. exact (ecdh_bound ssp n b own). Qed.
Print Assumptions C134_ecdh_partial.
Theorem C134_prty_partial ssp nT nM b own : ssp <= 39 -> N.of_nat nT * N.of_nat nM < 2 ^ 64 -> prtyMaskBytes ssp (N.of_nat nT) (N.of_nat nM) = Done b -> length own = nM ->
  chance_le (maskValues b) (2 * nT) (tablePairs 2 nT own) 1 (2 ^ ssp).
Proof. exact (prty_bound ssp nT nM b own). Qed.
Print Assumptions C134_prty_partial.
(** The run of PRTY (C95, C96) uses masks of this length. *)
Theorem C134_prty_run ssp nT nM b : prtyMaskBytes ssp nT nM = Done b <-> Prty_Model.hashBytes nT nM = Some (N.to_nat b).
Proof. exact (prty_run_bytes ssp nT nM b). Qed.
Print Assumptions C134_prty_run.
Example C134_case : ecdhMaskBytes 39 (N.of_nat 3) = Done 6 /\ chance_le (maskValues 6) 3 (allPairs 3 [4; 8; 15]%nat) 1 (2 ^ 39) /\
  prtyMaskBytes 39 (N.of_nat 4) (N.of_nat 3) = Done 6 /\ chance_le (maskValues 6) (2 * 4) (tablePairs 2 4 [(0, 7); (1, 9); (1, 7)]%nat) 1 (2 ^ 39).
Proof. split_and!; [reflexivity|apply (ecdh_bound 39 3); [lia|reflexivity..]|reflexivity|apply (prty_bound 39 4 3); [lia|reflexivity..]]. Qed.

(** C135. RR17a: [n * B] received masks are compared with [n * B] own ones. Natural instead of binary logarithms: with
    [2^20] items, bins of 16 and 40 bits of security, a wrong item is reported with a chance above [2^-25]. *)
Theorem C135_rr17a_refuted : exists ssp n B b own, rr17MaskBytes ssp n B = Done b /\ length own = N.to_nat (n * B) /\ NoDup own /\
  Forall (fun v => v < maskValues b)%nat own /\ chance_gt (maskValues b) (N.to_nat (n * B)) (allPairs (N.to_nat (n * B)) own) (2 ^ 15) (2 ^ ssp).
Proof. exact rr17_witness. Qed.
Print Assumptions C135_rr17a_refuted.
(** What is missing: the factor [4 * n * B]. *)
Theorem C135_rr17a_partial ssp n B b own : n * B < 2 ^ 64 -> rr17MaskBytes ssp n B = Done b -> length own = N.to_nat (n * B) ->
  chance_le (maskValues b) (N.to_nat (n * B)) (allPairs (N.to_nat (n * B)) own) (4 * (n * B)) (2 ^ ssp).
Proof. exact (rr17_bound ssp n B b own). Qed.
Print Assumptions C135_rr17a_partial.
Example C135_case : rr17MaskBytes 40 (2 ^ 20) 16 = Done 9 /\ chance_le (maskValues 9) (N.to_nat (2 ^ 20 * 16)) (allPairs (N.to_nat (2 ^ 20 * 16)) (seq 0 (N.to_nat (2 ^ 20 * 16)))) (4 * (2 ^ 20 * 16)) (2 ^ 40).
Proof. split; [exact bytes_witness|]. apply rr17_bound; [reflexivity|exact bytes_witness|apply seq_length]. Qed.
