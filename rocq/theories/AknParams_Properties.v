(** Theorems about the parameters of RR16. *)
From Coq Require Import Reals.
From Verif Require Import Base Rr16_Model AknParams_Model AknParams_Spec AknParams_Proofs AknParams_Proofs2 AknParams_Proofs3 AknParams_Proofs4.

(** * C172: an honest receiver has enough OTs *)

(** Unless more of its ones are opened than the threshold allows, the receiver has a one left for each hash value of its [n] items; this and too few OTs for the bits of
    the filter happen with probability at most e^-k each. *)
Theorem C172_honest n k a : 0 < k -> 0 < n -> n * 100 < 2 ^ 64 -> computeAknBfParams n k = Done (Some a) ->
  (forall opened, opened <= apThr a -> n * apHashes a <= apOnes a - opened) /\
  (coins (apProb a) (N.to_nat (apOnes a)) (tooMany (apThr a)) <= exp (- toR k))%R /\
  (coins (apProb a) (N.to_nat (apOts a)) (tooFew (apOts a) (apBits a)) <= exp (- toR k))%R.
Proof. intros Hk Hn Hw E. destruct (params_ok n k a Hk Hn Hw E) as (_ & G & G1 & G2 & _). split; [lia|]. split; [exact G1|exact G2]. Qed.
Print Assumptions C172_honest.
(** The formulas by themselves, for every probability. *)
Theorem C172_formulas M p k : (0 < p < 1)%R -> 0 < k -> 0 < M ->
  M + computeTau (computeMh M p k) p k <= computeMh M p k /\ (coins p (N.to_nat M) (tooMany (computeTau M p k)) <= exp (- toR k))%R.
Proof. intros Hp Hk HM. split; [exact (mh_enough M p k Hp Hk HM)|exact (tau_many M p k Hp Hk)]. Qed.
Print Assumptions C172_formulas.
(** The search ends, and it finds parameters for every set of at least 100 items (40 bits of security). *)
Theorem C172_search n k : searchParams n k <> OutOfFuel /\ searchParams n k <> UB /\ (100 <= n -> n * 100 < 2 ^ 64 -> exists a, searchParams n 40 = Done (Some a)).
Proof. destruct (search_stops n k). split; [done|]. split; [done|]. exact (search_finds n). Qed.
Print Assumptions C172_search.

(** Sizes in the table and elsewhere; the threshold of the table is the formula, and not more. *)
Example C172_example : computeAknBfParams 256 40 = Done (Some (mkAkn 99372 27246 3182 (toR 99 / 1000) 94 88627)) /\ 256 * 94 + 3182 = 27246 /\
  (exists a, computeAknBfParams 1000 40 = Done (Some a)) /\ computeTau 27246 (toR 99 / 1000) 40 = 3182 /\ computeMh 24064 (toR 99 / 1000) 40 = 27246.
Proof.
  split; [reflexivity|]. split; [done|]. split; [|split; [apply tau_check|apply mh_check]; by vm_compute]. change (computeAknBfParams 1000 40) with (searchParams 1000 40). by apply search_finds.
Qed.

(** * C173: a malicious receiver does not get by with too many ones *)

(** Whatever the number [ones] of OTs in which the receiver chooses one, with probability at most e^-k it is not caught and keeps so many that all hash values of an
    item are among them with probability more than 2^-128. The filter has one bit less than in the formula at most. *)
Theorem C173_malicious n k a : 0 < k -> 0 < n -> n * 100 < 2 ^ 64 -> computeAknBfParams n k = Done (Some a) ->
  forall ones, (coins (apProb a) ones (cheats (apThr a) (apHashes a) (apBits a + 1) ones) <= exp (- toR k))%R.
Proof. intros Hk Hn Hw E. destruct (params_ok n k a Hk Hn Hw E) as (_ & _ & _ & _ & G). exact G. Qed.
Print Assumptions C173_malicious.
(** In the table the bits are enough. *)
Theorem C173_table n a : (n, a) ∈ aknTableR -> forall ones, (coins (apProb a) ones (cheats (apThr a) (apHashes a) (apBits a) ones) <= exp (- toR 40))%R.
Proof. intros H. destruct (table_params n a H) as (_ & _ & _ & _ & G). intros ones. specialize (G ones). by rewrite N.add_0_r in G. Qed.
Print Assumptions C173_table.

(** With 37,800 ones and 3,182 opened, 34,618 are left, which is too many; with 37,600 not. *)
Example C173_example : (256, mkAkn 99372 27246 3182 (toR 99 / 1000) 94 88627) ∈ aknTableR /\
  cheats 3182 94 88627 (N.to_nat 37800) (N.to_nat 3182) = true /\ cheats 3182 94 88627 (N.to_nat 37600) (N.to_nat 3182) = false /\ cheats 3182 94 88627 (N.to_nat 37800) (N.to_nat 3183) = false.
Proof.
  split; [unfold aknTableR; do 7 right; left|].
  unfold cheats. rewrite <- !Nnat.N2Nat.inj_sub, !Nnat.N2Nat.id. by vm_compute.
Qed.

(** * C174: the table holds the values of the formulas *)

(** The entry for one item is that for four. *)
Theorem C174_table n a : (n, a) ∈ aknTableR ->
  apOnes a = computeMh (N.max n 4 * apHashes a) (apProb a) 40 /\ apThr a = computeTau (apOnes a) (apProb a) 40 /\ apOts a = computeMh (apBits a) (apProb a) 40.
Proof. exact (table_formulas n a). Qed.
Print Assumptions C174_table.
Example C174_example : (8388608, mkAkn 2052497778 758786092 3811372 (toR 5 / 1000) 90 2042206617) ∈ aknTableR /\ length aknTableR = 23%nat /\ length aknTable = 23%nat.
Proof. split; [unfold aknTableR; do 22 right; left|done]. Qed.
