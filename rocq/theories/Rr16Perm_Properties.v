(** What the permutation of RR16 shows to the sender: property C163. *)
From stdpp Require Import sorting.
From Verif Require Import Base Rr16_Model Rr16_Spec Rr16Perm_Spec Rr16Perm_Proofs.
From Verif Require Rr16_Properties.

(** C163. Stated in full: the permutation that the receiver sends does not depend on its set. It takes the choices from the lists [mZeros] and [mOnes] of the OT
    library in their order; the shuffle of these lists (AknBfMPsiReceiver.cpp:76-77) is commented out. If the library returns them sorted, the statement is false:
    every item of the receiver's set passes the sender's test. *)
Theorem C163_sorted_refuted aes ro seed m nh T n total zeros ones rmsgs R mergeOrd perm mp x : StronglySorted N.lt ones -> (forall i, i ∈ ones -> i < 2 ^ 32) -> (0 < m)%nat ->
  recvFirst aes ro seed m nh T n total zeros ones rmsgs R mergeOrd = Done (perm, mp) -> x ∈ R -> increasesAt perm (filterPos aes ro seed (N.of_nat m) nh x).
Proof. exact (sorted_shows aes ro seed m nh T n total zeros ones rmsgs R mergeOrd perm mp x). Qed.
Print Assumptions C163_sorted_refuted.

(** Other items fail it, so that the sender tells sets of the same size apart. *)
Definition pBounded (l : list N) : Prop := forall i, i ∈ l -> i < 2 ^ 32.
Theorem C163_distinguished_refuted : exists aes ro seed m nh T n total zeros ones rmsgs R R' mergeOrd x perm mp, length R = length R' /\
  StronglySorted N.lt zeros /\ StronglySorted N.lt ones /\ pBounded ones /\
  recvFirst aes ro seed m nh T n total zeros ones rmsgs R mergeOrd = Done (perm, mp) /\ ~ increasesAt perm (filterPos aes ro seed (N.of_nat m) nh x) /\
  forall zeros' ones' rmsgs' mergeOrd' perm' mp', StronglySorted N.lt ones' -> pBounded ones' ->
    recvFirst aes ro seed m nh T n total zeros' ones' rmsgs' R' mergeOrd' = Done (perm', mp') -> increasesAt perm' (filterPos aes ro seed (N.of_nat m) nh x).
Proof.
  exists Rr16_Properties.exAes, Rr16_Properties.exRo, 5, 40%nat, 3%nat, 2%nat, 3%nat, 60, Rr16_Properties.exZeros, Rr16_Properties.exOnes, Rr16_Properties.exRmsgs,
    [10; 20; 30], [10; 20; 11], [1; 0]%nat, 11. eexists _, _. split; [done|].
  split; [repeat constructor|]. split; [repeat constructor|]. split; [refine (proj1 (Forall_forall (fun i => i < 2 ^ 32) _) _); repeat constructor|]. split; [vm_compute; reflexivity|]. split.
  - intros H. specialize (H 2 14 40 12). cut (40 < 12); [done|]. apply H; try (vm_compute; reflexivity); apply (bool_decide_unpack _); vm_compute; exact I.
  - intros z o r mo p mp S B E. eapply sorted_shows; [exact S|exact B| |exact E|]; [lia|]. apply (bool_decide_unpack _). exact I.
Qed.
Print Assumptions C163_distinguished_refuted.

(** What holds. If the unopened OTs come in a random order, with a fixed number of ones, the permutation says nothing: between the outcomes of the OTs for any two
    sets of the same size there is a bijection under which the sender receives the same permutation, and holds the same messages. [I]: the unopened OTs. *)
Theorem C163_shuffled_partial aes ro seed m nh T n total smsgs sampled I k0 k1 R R' mergeOrd :
  (0 < T)%nat -> N.of_nat n * N.of_nat T < 2 ^ 64 -> (0 < m)%nat -> total <= 2 ^ 32 ->
  NoDup I -> length sampled = length smsgs -> N.of_nat (length smsgs) <= 2 ^ 32 -> (forall i, i ∈ I -> sampled !! N.to_nat i = Some false) ->
  length R = n -> length R' = n -> (n * nh <= k1)%nat -> (m <= k0 + k1)%nat ->
  exists f g : list N * list N -> list N * list N, forall c, choicesOf I k0 k1 c ->
    (choicesOf I k0 k1 (f c) /\ g (f c) = c) /\ (choicesOf I k0 k1 (g c) /\ f (g c) = c) /\
    exists perm mp mp', recvFirst aes ro seed m nh T n total c.1 c.2 (heldMsgs smsgs c.2) R mergeOrd = Done (perm, mp) /\
      recvFirst aes ro seed m nh T n total (f c).1 (f c).2 (heldMsgs smsgs (f c).2) R' mergeOrd = Done (perm, mp').
Proof. intros HT Hw Hm Ht ND LS BS HI. exact (perm_hidden aes ro seed m nh T n total smsgs sampled I k0 k1 HT Hw Hm Ht ND LS BS HI R R' mergeOrd). Qed.
Print Assumptions C163_shuffled_partial.
(** The OTs of [Rr16_Properties]: 38 zeros, 18 ones; two sets of three items, three hash functions. *)
Example C163_example : exists perm mp mp' c', 
  recvFirst Rr16_Properties.exAes Rr16_Properties.exRo 5 40 3 2 3 60 Rr16_Properties.exZeros Rr16_Properties.exOnes (heldMsgs Rr16_Properties.exSmsgs Rr16_Properties.exOnes)
    [10; 20; 30] [1; 0]%nat = Done (perm, mp) /\
  recvFirst Rr16_Properties.exAes Rr16_Properties.exRo 5 40 3 2 3 60 c'.1 c'.2 (heldMsgs Rr16_Properties.exSmsgs c'.2) [10; 20; 11] [1; 0]%nat = Done (perm, mp') /\
  choicesOf (map N.of_nat (seq 2 56)) 38 18 c' /\ choicesOf (map N.of_nat (seq 2 56)) 38 18 (Rr16_Properties.exZeros, Rr16_Properties.exOnes).
Proof.
  assert (choicesOf (map N.of_nat (seq 2 56)) 38 18 (Rr16_Properties.exZeros, Rr16_Properties.exOnes)) as H by (split; [vm_compute; reflexivity|split; vm_compute; reflexivity]).
  destruct (C163_shuffled_partial Rr16_Properties.exAes Rr16_Properties.exRo 5 40 3 2 3 60 Rr16_Properties.exSmsgs Rr16_Properties.exSampled (map N.of_nat (seq 2 56)) 38 18
    [10; 20; 30] [10; 20; 11] [1; 0]%nat) as (f & g & K); [lia|vm_compute; reflexivity|lia|vm_compute; discriminate| |vm_compute; reflexivity|vm_compute; discriminate| |
    reflexivity|reflexivity|lia|lia|].
  - by apply (bool_decide_unpack _); vm_compute.
  - refine (proj1 (Forall_forall (fun i => Rr16_Properties.exSampled !! N.to_nat i = Some false) _) _). repeat constructor.
  - destruct (K _ H) as ([A _] & _ & perm & mp & mp' & E & E'). exists perm, mp, mp', (f (Rr16_Properties.exZeros, Rr16_Properties.exOnes)). split; [exact E|]. split; [exact E'|]. split; [exact A|exact H].
Qed.
