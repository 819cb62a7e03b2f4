(** Property theorems: the masks of the sender's items outside the receiver's set in PRTY (C180). *)
From Verif Require Import Base Prty_Model Prty_Spec Prty_Proofs Prty_Properties PrtyBits_Spec PrtyBits_Proofs PrtyBits_Proofs2.

(** * C180 *)

(** The sender's mask of [x] is the hash of a row that differs from the receiver's row by the choice bits in the columns that count for the weight. *)
Theorem C180_row P n R x : length R = 4%nat -> let F := fieldSizeOf n in
  sendMask P F R x = maskOfRow P (sentRow P F R x) /\
  forall i, (i < F)%nat -> rowBit (sentRow P F R x) i = xorb (colBit (aesT P) x i) (choice P i && differs P R x i).
Proof. intros HR F. split; [done|]. intros i Hi. by apply sent_bits; [apply fieldSize_range| |]. Qed.
Print Assumptions C180_row.
(** With secret choice bits, all rows that agree with the receiver's row in the other columns are equally likely, and no other row occurs. *)
Theorem C180_uniform P n R x v : length R = 4%nat -> let F := fieldSizeOf n in
  let cases := filter (fun s => Forall (fun i => rowBit (sentRow (withChoice P s) F R x) i = nth i v false) (seq 0 F)) (bits F) in
  ((forall i, (i < F)%nat -> differs P R x i = false -> nth i v false = colBit (aesT P) x i) -> sizeN cases = 2 ^ N.of_nat (F - weight P F R x)) /\
  (forall i, (i < F)%nat -> differs P R x i = false -> nth i v false <> colBit (aesT P) x i -> sizeN cases = 0).
Proof.
  intros HR F cases. split; [by apply row_reached; [apply fieldSize_range|]|]. intros i Hi HD Hv. by apply (row_unreached P F R x v i); [apply fieldSize_range|..].
Qed.
Print Assumptions C180_uniform.

(** Sets of [2 ^ 22] items: the field is that of [2 ^ 20] items, and some item has fewer than 128 unknown columns with probability above [2 ^ -40]. *)
Theorem C180_weight_refuted : exists n ys, n = 2 ^ 22 /\ sizeN ys = n /\ NoDup ys /\
  forall P blks, (forall y z, y ∈ ys -> z ∈ blks y -> z ∉ ys) ->
    sizeN (lists (bits (fieldSizeOf n)) (length ys)) < 2 ^ 40 * sizeN (weakFamilies P (fieldSizeOf n) blks ys).
Proof.
  exists (2 ^ 22), (map N.of_nat (seq 0 (N.to_nat (2 ^ 22)))). assert (sizeN (map N.of_nat (seq 0 (N.to_nat (2 ^ 22)))) = 2 ^ 22) as E by (apply nat_size).
  assert (NoDup (map N.of_nat (seq 0 (N.to_nat (2 ^ 22))))) as Hn by (apply nat_nodup).
  split; [reflexivity|]. split; [exact E|]. split; [exact Hn|]. intros P blks Hd. exact (weak_often P 436 blks _ 22 ltac:(by vm_compute) E Hn Hd).
Qed.
Print Assumptions C180_weight_refuted.
(** The field size is chosen from the size of the receiver's set only: a larger set of the sender. *)
Theorem C180_larger_refuted : exists n ys, n = 2 ^ 10 /\ sizeN ys = 2 ^ 20 /\ NoDup ys /\
  forall P blks, (forall y z, y ∈ ys -> z ∈ blks y -> z ∉ ys) ->
    sizeN (lists (bits (fieldSizeOf n)) (length ys)) < 2 ^ 40 * sizeN (weakFamilies P (fieldSizeOf n) blks ys).
Proof.
  exists (2 ^ 10), (map N.of_nat (seq 0 (N.to_nat (2 ^ 20)))). assert (sizeN (map N.of_nat (seq 0 (N.to_nat (2 ^ 20)))) = 2 ^ 20) as E by (apply nat_size).
  assert (NoDup (map N.of_nat (seq 0 (N.to_nat (2 ^ 20))))) as Hn by (apply nat_nodup).
  split; [reflexivity|]. split; [exact E|]. split; [exact Hn|]. intros P blks Hd. exact (weak_often P 416 blks _ 20 ltac:(by vm_compute) E Hn Hd).
Qed.
Print Assumptions C180_larger_refuted.
(** Missing: sets of more than [2 ^ 20] and at most [2 ^ 22] items, and of more than [2 ^ 24]; senders with larger sets; both hash functions together. *)
Theorem C180_weight_partial P n blks ys : sizeN ys <= n -> n <= 2 ^ 20 \/ 2 ^ 22 < n <= 2 ^ 24 -> NoDup ys -> (forall y z, y ∈ ys -> z ∈ blks y -> z ∉ ys) ->
  2 ^ 40 * sizeN (weakFamilies P (fieldSizeOf n) blks ys) <= sizeN (lists (bits (fieldSizeOf n)) (length ys)).
Proof. exact (weak_rare P n blks ys). Qed.
Print Assumptions C180_weight_partial.
(** The field of 440 bits that belongs to [2 ^ 22] items would do. *)
Theorem C180_fix P blks ys : sizeN ys <= 2 ^ 22 -> NoDup ys -> (forall y z, y ∈ ys -> z ∈ blks y -> z ∉ ys) ->
  2 ^ 40 * sizeN (weakFamilies P 440 blks ys) <= sizeN (lists (bits 440) (length ys)).
Proof. exact (weak_440 P blks ys). Qed.
Print Assumptions C180_fix.
(** The receiver's points are 1 and 2: its own point has weight 0, the item 6 has 288 unknown columns. *)
Example C180_example : let R := polyAt exP 416 [1; 2] in length (R 6) = 4%nat /\ weight exP 416 (R 1) 1 = 0%nat /\ weight exP 416 (R 6) 6 = 288%nat /\
  rowBit (sentRow exP 416 (R 6) 6) 128 = false /\ rowBit (sentRow exP 416 (R 6) 6) 129 = true /\ fieldSizeOf 1000 = 416%nat /\ NoDup [6; 7; 9] /\ (forall y z, y ∈ [6; 7; 9] -> z ∈ [1; 2] -> z ∉ [6; 7; 9]).
Proof.
  repeat (split; [by vm_compute|]). split; [by apply (bool_decide_eq_true_1 _); vm_compute|]. intros y z _ Hz. rewrite !elem_of_cons in *. intros [->|[->|[->|H]]]; try (by apply elem_of_nil in H); destruct Hz as [Hz|[Hz|Hz]]; try done; by apply elem_of_nil in Hz.
Qed.
