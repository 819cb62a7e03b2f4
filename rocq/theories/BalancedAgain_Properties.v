(** Theorems about a balanced index that is filled a second time. *)
From Verif Require Import Base Balanced_Model Balanced_Spec Balanced_Proofs BalancedAgain_Proofs.

(** Initialised and filled again with at least as many items: the bins list every index of the first set twice besides those of
    the second one. *)
Theorem C85_reuse_entries ord enc maxBin dummies items1 items2 rs1 rs2 out : anyOrder ord -> dummies < maxBin -> maxBin < 2 ^ 64 ->
  (length items1 <= length items2)%nat ->
  balancedTwice ord enc maxBin dummies items1 items2 rs1 rs2 = Done out ->
  map snd (concat out) ≡ₚ seq 0 (length items1) ++ seq 0 (length items1) ++ seq 0 (length items2).
Proof. exact (twice_ok ord enc maxBin dummies items1 items2 rs1 rs2 out). Qed.
Print Assumptions C85_reuse_entries.
Example C85_entries_example : exists out, anyOrder (fun _ l => l) /\
  balancedTwice (fun _ l => l) (fun x => x) 8 0 [5; 7] [8; 9; 10] [] [] = Done out /\ length (concat out) = 7%nat.
Proof. eexists. split; [intros b l; done|]. split; [vm_compute; reflexivity|]. done. Qed.
(** Right on a new object only: nothing was inserted before. *)
Theorem C85_fresh_partial ord enc maxBin dummies items rs1 rs2 out : anyOrder ord -> dummies < maxBin -> maxBin < 2 ^ 64 ->
  balancedTwice ord enc maxBin dummies [] items rs1 rs2 = Done out -> allPlaced (length items) out.
Proof. intros HO H1 H2 H. exact (twice_ok ord enc maxBin dummies [] items rs1 rs2 out HO H1 H2 (Nat.le_0_l _) H). Qed.
Print Assumptions C85_fresh_partial.
Example C85_fresh_example : exists out, balancedTwice (fun _ l => l) (fun x => x) 8 0 [] [8; 9; 10] [] [] = Done out /\ length (concat out) = 3%nat.
Proof. eexists. split; [vm_compute; reflexivity|]. done. Qed.
