(** Theorems about the naive evaluation of a whole tree. *)
From Verif Require Import Base Bgi_Model Bgi_Spec BgiNaive_Spec BgiNaive_Proofs.

(** Exactly what is returned, for any database, key and group word. *)
Theorem C19_naive_value aes data k0 cws g : N.of_nat (length cws) < 2 ^ 64 ->
  fullDomainNaive aes data (k0 :: cws) g =
  if N.of_nat (length data) =? domainSize (length cws) (length g)
  then Done (selectXor (naiveBit aes k0 cws (length g)) data) else Thrown 0.
Proof. exact (naive_value aes data k0 cws g). Qed.
Print Assumptions C19_naive_value.
(** Three levels, leaf 5: the branches the evaluation takes and those of the point. *)
Example C19_value_example : N.of_nat (length [7; 8; 9]) < 2 ^ 64 /\
  map (naiveBranch 3 5) [0; 1; 2]%nat = [false; false; true] /\ map (rightBranch 3 5) [0; 1; 2]%nat = [true; false; true].
Proof. by vm_compute. Qed.

(** With two levels or more the records of the first two leaves can be exchanged: no answer depends on it, so no client can
    get the right one of them from such answers. *)
Theorem C19_naive_blind aes a b rest k0 cws g : (2 <= length cws)%nat -> N.of_nat (length cws) < 2 ^ 64 ->
  length a = (length g * 128)%nat -> length b = (length g * 128)%nat ->
  fullDomainNaive aes (a ++ b ++ rest) (k0 :: cws) g = fullDomainNaive aes (b ++ a ++ rest) (k0 :: cws) g.
Proof. exact (naive_blind aes a b rest k0 cws g). Qed.
Print Assumptions C19_naive_blind.
Example C19_blind_example : (2 <= length [7; 8])%nat /\ N.of_nat (length [7; 8]) < 2 ^ 64 /\
  length (replicate 128 3) = (length [9] * 128)%nat /\ length (replicate 128 4) = (length [9] * 128)%nat /\
  replicate 128 3 ++ replicate 128 4 ++ replicate 256 0 ≠ replicate 128 4 ++ replicate 128 3 ++ replicate 256 0.
Proof. split; [cbn; lia|]. split; [done|]. split; [done|]. split; [done|]. discriminate. Qed.
