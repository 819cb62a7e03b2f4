(** Property theorems about the Diffie-Hellman PSI: the length of the masks (C33). *)
From Verif Require Import Base Ecdh_Model.

(** The masks are long enough for statistical security of 39 bits: the [n * n] pairs of items are fewer than the [8 * maskBytes n]-bit masks divided by [2 ^ 39];
    and they are not more than a byte longer than 40 bits and the pairs need. *)
Theorem C33_mask_length n : (0 < n)%nat ->
  N.of_nat n * N.of_nat n * 2 ^ 39 < 2 ^ (8 * maskBytes n) /\ 2 ^ (8 * maskBytes n) <= N.of_nat n * N.of_nat n * 2 ^ 47.
Proof.
  intros Hn. set (q := N.of_nat n * N.of_nat n). assert (0 < q) as Hq by (unfold q; lia). unfold maskBytes. fold q.
  pose proof (N.log2_spec q Hq) as [L1 L2]. pose proof (N.div_mod (47 + N.log2 q) 8 ltac:(lia)) as D. pose proof (N.mod_lt (47 + N.log2 q) 8 ltac:(lia)) as M.
  set (b := (47 + N.log2 q) / 8) in *. split.
  - apply N.lt_le_trans with (2 ^ N.succ (N.log2 q) * 2 ^ 39).
    + apply N.mul_lt_mono_pos_r; [|done]. apply N.neq_0_lt_0, N.pow_nonzero. lia.
    + rewrite <- N.pow_add_r. apply N.pow_le_mono_r; lia.
  - apply N.le_trans with (2 ^ N.log2 q * 2 ^ 47).
    + rewrite <- N.pow_add_r. apply N.pow_le_mono_r; lia.
    + apply N.mul_le_mono_r. done.
Qed.
Print Assumptions C33_mask_length.
(** Forty bits are not always reached: 18 items have 324 pairs and masks of 48 bits. *)
Example C33_mask_length_example : maskBytes 3 = 6 /\ maskBytes 18 = 6 /\ 2 ^ (8 * 6) < 18 * 18 * 2 ^ 40.
Proof. vm_compute. done. Qed.
