(** Property theorems about the OT input length chosen by [init] of RR17a, RR17b and GRR18 (C206, C207). *)
From Verif Require Import Base Rr17_Model Rr17a_Model Rr17b_Model OtWidth_Model OtWidth_Spec OtWidth_Proofs.

(** * C206 *)

(** RR17a and GRR18 (same OT inputs, Grr18_Model uses [nco] too): a given bit length that is at least [log2ceil n]: the OTs are configured for
    enough bits. *)
Theorem C206_rr17a_covers_partial s P b : N.of_nat (Rr17a_Model.pN P) < 2 ^ 64 -> phase (Rr17a_Model.pN P) <= b -> b <= 128 ->
  Rr17a_Model.pHash P = (otWidth s (Rr17a_Model.pN P) b).1 -> covers b (otWidth s (Rr17a_Model.pN P) b).2 (nco P).
Proof. exact (rr17a_covers s P b). Qed.
Print Assumptions C206_rr17a_covers_partial.
(** 1000 items of 32 bits: 22 bits. *)
Definition exA (n : nat) : Rr17a_Model.params := Rr17a_Model.mkParams false id n n 5 7 1 (fun _ _ x => x) (fun _ _ x => x).
Example C206_rr17a_example : otWidth 40 1000 32 = (false, 22) /\ phase 1000 <= 32 /\ nco (exA 1000) (2 ^ 32 - 1) = 2 ^ 22 - 1.
Proof. by vm_compute. Qed.

(** A bit length below [log2ceil n] wraps around: with 32 items of 4 bits the OTs are configured for 2^64 - 1 bits. *)
Theorem C206_width_refuted : exists n b, (0 < n)%nat /\ N.of_nat n <= 2 ^ 64 /\ b <= 128 /\ b < (otWidth 40 n b).2.
Proof. exists 32%nat, 4. repeat split; vm_compute; try done; lia. Qed.
Print Assumptions C206_width_refuted.

(** Exactly then: otherwise [log2ceil n] bits fewer than the items have. *)
Theorem C206_width_iff s n b : N.of_nat n < 2 ^ 64 -> b <= 128 -> (otWidth s n b).2 <= b <-> phase n <= b.
Proof. exact (width_iff s n b). Qed.
Print Assumptions C206_width_iff.
Example C206_width_example : otWidth 40 32 4 = (false, 2 ^ 64 - 1) /\ otWidth 40 32 5 = (false, 0) /\ otWidth 40 32 64 = (false, 59).
Proof. by vm_compute. Qed.

(** RR17b gives the whole item to the OTs that are configured for [log2ceil n] bits fewer. Two items of 8 bits in the same bin that the OTs
    cannot tell apart, with four items. *)
Definition exB (n : nat) : Rr17b_Model.params :=
  Rr17b_Model.mkParams false id id n n 5 7 1 (fun _ _ x => (x, x)) (fun x r => N.lxor x r).
Theorem C206_rr17b_refuted : exists P b x y, Rr17b_Model.pHash P = (otWidth 40 (Rr17b_Model.pN P) b).1 /\ x < 2 ^ b /\ y < 2 ^ b /\ x <> y /\
  clash (itemBin P) (fun z => otReads (otWidth 40 (Rr17b_Model.pN P) b).2 (otInput P z)) x y.
Proof. exists (exB 4), 8, 1, 65. repeat split; vm_compute; done. Qed.
Print Assumptions C206_rr17b_refuted.

(** Enough bits only for a single item, or if the subtraction wraps around. *)
Theorem C206_rr17b_iff s P b : N.of_nat (Rr17b_Model.pN P) < 2 ^ 64 -> b <= 128 -> Rr17b_Model.pHash P = (otWidth s (Rr17b_Model.pN P) b).1 ->
  covers b (otWidth s (Rr17b_Model.pN P) b).2 (otInput P) <-> phase (Rr17b_Model.pN P) = 0 \/ b < phase (Rr17b_Model.pN P).
Proof. exact (rr17b_covers s P b). Qed.
Print Assumptions C206_rr17b_iff.
Example C206_rr17b_example : phase (Rr17b_Model.pN (exB 1)) = 0 /\ otWidth 40 1 8 = (false, 8) /\ phase (Rr17b_Model.pN (exB 4)) = 2 /\ otWidth 40 4 8 = (false, 6).
Proof. by vm_compute. Qed.

(** * C207 *)

(** Hashing to a smaller domain. A fixed block [u]; among all 2^128 blocks at most this many are taken for the same item, if the OTs read at
    least the bits they are configured for: a fraction of 2^-(s + 2 log2ceil n - 1), times the number of blocks of a bin that the shift makes
    equal (1 for as many bins as 2^(log2ceil n)). *)
Theorem C207_pair_bound s (n nb : nat) m u l : 0 < s -> (0 < n)%nat -> N.of_nat n < 2 ^ 64 -> (0 < nb)%nat -> u < 2 ^ 128 ->
  s + 2 * phase n <= 129 -> (otWidth s n noBitSize).2 <= m -> blocksWith (clash (binOf nb) (fun v => otReads m (shiftRight v (phase n))) u) l ->
  N.of_nat (length l) * 2 ^ (s + 2 * phase n) <= 2 * 2 ^ 128 * ceilDiv (2 ^ phase n) (N.of_nat nb).
Proof. exact (collide_total s n nb m u l). Qed.
Print Assumptions C207_pair_bound.
(** 512 items, 512 bins, 110 bits: two blocks. *)
Example C207_example : blocksWith (clash (binOf 512) (fun v => otReads 118 (shiftRight v (phase 512))) 5) [5; 2 ^ 127 + 5] /\
  otWidth 110 512 noBitSize = (true, 118) /\ 110 + 2 * phase 512 = 128 /\ ceilDiv (2 ^ phase 512) 512 = 1.
Proof.
  split; [split|by vm_compute].
  - apply (bool_decide_eq_true_1 _). by vm_compute.
  - repeat (apply Forall_cons_2; [repeat split; vm_compute; done|]). apply Forall_nil_2.
Qed.

(** The bound is reached for powers of two: there it is exact for OTs that read just the configured bits. *)
Theorem C207_pair_exact s (n nb : nat) u : 0 < s -> (0 < n)%nat -> N.of_nat n < 2 ^ 64 -> u < 2 ^ 128 -> s + 2 * phase n <= 129 -> N.of_nat nb = 2 ^ phase n ->
  exists l, blocksWith (clash (binOf nb) (fun v => otReads (otWidth s n noBitSize).2 (shiftRight v (phase n))) u) l /\
    N.of_nat (length l) * 2 ^ (s + 2 * phase n) = 2 * 2 ^ 128.
Proof. exact (collide_total_exact s n nb u). Qed.
Print Assumptions C207_pair_exact.
Example C207_exact_example : N.of_nat 512 = 2 ^ phase 512 /\ 40 + 2 * phase 512 <= 129.
Proof. by vm_compute. Qed.

(** All pairs of the two sets together: with as many bins as items the expected number of clashes is at most 2^(2 - s). *)
Theorem C207_expected_partial s (n : nat) m u l : 0 < s -> (0 < n)%nat -> N.of_nat n < 2 ^ 64 -> u < 2 ^ 128 ->
  s + 2 * phase n <= 129 -> (otWidth s n noBitSize).2 <= m -> blocksWith (clash (binOf n) (fun v => otReads m (shiftRight v (phase n))) u) l ->
  N.of_nat n * N.of_nat n * N.of_nat (length l) * 2 ^ s <= 4 * 2 ^ 128.
Proof. exact (collide_expected s n m u l). Qed.
Print Assumptions C207_expected_partial.

(** It can exceed 2^-s: 512 items, 110 bits. *)
Theorem C207_expected_refuted : exists s (n : nat) u l, 0 < s /\ (0 < n)%nat /\ N.of_nat n < 2 ^ 64 /\ u < 2 ^ 128 /\
  blocksWith (clash (binOf n) (fun v => otReads (otWidth s n noBitSize).2 (shiftRight v (phase n))) u) l /\
  2 ^ 128 < N.of_nat n * N.of_nat n * N.of_nat (length l) * 2 ^ s.
Proof.
  exists 110, 512%nat, 5, [5; 2 ^ 127 + 5]. split; [done|]. split; [lia|]. split; [by vm_compute|]. split; [by vm_compute|]. split; [split|by vm_compute].
  - apply (bool_decide_eq_true_1 _). by vm_compute.
  - repeat (apply Forall_cons_2; [repeat split; vm_compute; done|]). apply Forall_nil_2.
Qed.
Print Assumptions C207_expected_refuted.
