(** Property theorems about the hashing of both parties of PRTY (C189). *)
From Verif Require Import Base SimpleIndex_Model SimpleIndex_Spec Balanced_Model Balanced_Spec PrtyHash_Model PrtyHash_Proofs.

(** Whatever two arguments are missing in Sender:60, and even if both parties used the same key: for every number of bins above one there are a cipher (a
    permutation of the blocks) and an item such that the receiver puts the item into bin 0 in every run with that number of bins, and bin 0 of the sender
    stays empty. So the polynomial with the receiver's value for this item is not the one that the sender evaluates. *)
Theorem C189_bins_refuted m : 2 <= m -> m < 2 ^ 64 -> exists aes x,
  x < 2 ^ 128 /\ (forall key y, aes key (aes key y) = y) /\
  (forall ord ys rs out b l it, anyOrder ord -> m = binCount (N.of_nat (length ys)) 40 1 ->
     prtyRecvBins aes ord ys rs = Done out -> out !! b = Some l -> it ∈ l -> ys !! it.2 = Some x -> b = 0%nat) /\
  (forall cc n mx s, prtySendBins aes cc m n mx [x] = Done s -> binEntries s 0 = []).
Proof.
  intros Hm H64. exists (xorCipher (strayItem m)), (strayItem m). split; [apply stray_block|]. split.
  { intros key y. unfold xorCipher. by rewrite N.lxor_assoc, N.lxor_nilpotent, N.lxor_0_r. } split.
  - intros ord ys rs out b l it HO E. exact (stray_receiver m ord ys rs out b l it HO E).
  - intros cc n mx s. exact (stray_sender m n mx cc s Hm H64).
Qed.
Print Assumptions C189_bins_refuted.

(** With fewer than 39 items of the receiver there is one bin only, and every item that the sender places at all (C07) is there. *)
Theorem C189_bins_partial aes cc n mx ord xs ys rs s out i x : anyOrder ord -> (length ys < 39)%nat -> N.of_nat (length xs) <= 2 ^ 56 ->
  prtySendBins aes cc 1 n mx xs = Done s -> prtyRecvBins aes ord ys rs = Done out ->
  xs !! i = Some x -> (i < 8 * (length xs / 8) + 1)%nat -> x ∈ ys ->
  exists l it h c, out !! 0%nat = Some l /\ it ∈ l /\ ys !! it.2 = Some x /\ (N.of_nat i, h, c) ∈ binEntries s 0.
Proof. exact (one_bin aes cc n mx ord xs ys rs s out i x). Qed.
Print Assumptions C189_bins_partial.

(** Both runs exist: 39 items and two bins at the receiver, the last one is the item of the refutation; the sender has it in bin 1. *)
Definition exOrd9 : nat -> list nat -> list nat := fun _ l => l.
Definition exYs : list N := map (fun i => N.of_nat i + 2 ^ 64 * N.of_nat (i + 1)) (seq 0 38) ++ [strayItem 2].
Example C189_example : exists out l s,
  prtyRecvBins (xorCipher (strayItem 2)) exOrd9 exYs [] = Done out /\ out !! 0%nat = Some l /\ existsb (fun it => Nat.eqb it.2 38) l = true /\
  binCount (N.of_nat (length exYs)) 40 1 = 2 /\
  prtySendBins (xorCipher (strayItem 2)) 0 2 1 3 [strayItem 2] = Done s /\ binEntries s 0 = [] /\ length (binEntries s 1) = 3%nat.
Proof. do 3 eexists. repeat (split; [vm_compute; reflexivity|]). vm_compute. reflexivity. Qed.
Example C189_example_one : exists out s,
  prtyRecvBins (fun k y => N.lxor y k) exOrd9 [5; 6; 7] [] = Done out /\ map snd (default [] (out !! 0%nat)) = [0; 1; 2]%nat /\
  prtySendBins (fun k y => N.lxor y k) 9 1 1 3 [6] = Done s /\ length (binEntries s 0) = 3%nat.
Proof. do 2 eexists. repeat (split; [vm_compute; reflexivity|]). vm_compute. reflexivity. Qed.
