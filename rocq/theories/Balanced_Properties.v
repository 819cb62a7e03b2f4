(** Property theorems about the balanced allocation (C54-C56, C85). *)
From Verif Require Import Base Balanced_Model Balanced_Spec Balanced_Proofs.

Definition exOrd : nat -> list nat -> list nat := fun _ l => l.
Lemma exOrd_ok : anyOrder exOrd.
Proof. intros b l. reflexivity. Qed.
(** An item that is the pair of its bins. *)
Definition pairItem (b1 b2 : N) : N := b1 + 2 ^ 64 * b2.

(** * C54: bound and completeness *)

Theorem C54_balanced ord enc maxBin dummies items rs out :
  anyOrder ord -> dummies < maxBin -> maxBin < 2 ^ 64 -> balanced ord enc maxBin dummies items rs = Done out ->
  let m := binCount (N.of_nat (length items)) maxBin dummies in
  N.of_nat (length out) = m /\ Forall (fun l => N.of_nat (length l) <= maxBin) out /\ allPlaced (length items) out /\
  forall b l it, out !! b = Some l -> it ∈ l -> exists x h, items !! it.2 = Some x /\ h < 2 /\ N.of_nat b = itemBin enc m x h.
Proof.
  intros HO H1 H2 E. destruct (balanced_ok ord enc maxBin dummies items rs HO H1 H2) as [Q|(out' & Q & R)]; rewrite E in Q; [done|].
  by injection Q as ->.
Qed.
Print Assumptions C54_balanced.

(** No run accesses memory out of range or an entry that is not there. *)
Theorem C54_defined ord enc maxBin dummies items rs :
  anyOrder ord -> dummies < maxBin -> maxBin < 2 ^ 64 -> balanced ord enc maxBin dummies items rs ≠ UB.
Proof.
  intros HO H1 H2. destruct (balanced_ok ord enc maxBin dummies items rs HO H1 H2) as [Q|(out' & Q & _)]; rewrite Q; done.
Qed.
Print Assumptions C54_defined.

(** Five items, four of them in bin 0 of two after the first pass; two are moved. *)
Definition exFive : list N := [pairItem 1 0; pairItem 1 1; pairItem 1 0; pairItem 0 0; pairItem 0 0].
Example C54_example : balanced exOrd (fun x => x) 3 0 exFive [0; 0; 1; 0; 0; 0; 1; 0] = Done [[(1, 3%nat); (1, 4%nat)]; [(1, 1%nat); (1, 0%nat); (1, 2%nat)]].
Proof. vm_compute. reflexivity. Qed.

(** * C55: recorded hash numbers *)

(** Two items end in bin 1, their bin under function 0, with the number 1. *)
Theorem C55_hash_number_refuted : exists ord enc maxBin dummies items rs out b l it x,
  anyOrder ord /\ dummies < maxBin /\ maxBin < 2 ^ 64 /\ balanced ord enc maxBin dummies items rs = Done out /\ out !! b = Some l /\ it ∈ l /\
  items !! it.2 = Some x /\ N.of_nat b ≠ itemBin enc (binCount (N.of_nat (length items)) maxBin dummies) x it.1.
Proof.
  exists exOrd, (fun x => x), 3, 0, exFive, [0; 0; 1; 0; 0; 0; 1; 0]. eexists. exists 1%nat. eexists. exists (1, 0%nat). eexists.
  split; [apply exOrd_ok|]. split; [done|]. split; [done|]. split; [vm_compute; reflexivity|]. split; [reflexivity|].
  split; [right; left|]. split; [reflexivity|]. vm_compute. discriminate.
Qed.
Print Assumptions C55_hash_number_refuted.

(** If the greedy allocation of the first pass keeps to the bound, all numbers are right. *)
Theorem C55_hash_number_partial ord enc maxBin dummies items rs out b l it :
  anyOrder ord -> dummies < maxBin -> maxBin < 2 ^ 64 -> 
  Forall (fun c => c <= maxBin) (greedyLoads enc (binCount (N.of_nat (length items)) maxBin dummies) items) ->
  balanced ord enc maxBin dummies items rs = Done out -> out !! b = Some l -> it ∈ l ->
  exists x, items !! it.2 = Some x /\ it.1 < 2 /\ N.of_nat b = itemBin enc (binCount (N.of_nat (length items)) maxBin dummies) x it.1.
Proof.
  intros HO H1 H2 HN E Hl Hi. destruct (balanced_light ord enc maxBin dummies items rs HO H1 H2 HN) as (out' & E' & HC). rewrite E in E'.
  injection E' as <-. by apply (HC b l it).
Qed.
Print Assumptions C55_hash_number_partial.
Example C55_example : exists out, Forall (fun c => c <= 4) (greedyLoads (fun x => x) (binCount 5 4 0) exFive) /\ balanced exOrd (fun x => x) 4 0 exFive [] = Done out /\
  out = [[(1, 0%nat); (1, 2%nat); (1, 3%nat); (1, 4%nat)]; [(1, 1%nat)]].
Proof. eexists. split; [|split; vm_compute; reflexivity]. apply (bool_decide_eq_true_1 _). by vm_compute. Qed.

(** * C56: termination *)

(** Two items, bound one: the second has both bins 0, the first can go to bin 1 and is moved there; the loop does not notice that it is done. *)
Theorem C56_terminates_refuted : exists ord enc maxBin dummies items f,
  anyOrder ord /\ dummies < maxBin /\ maxBin < 2 ^ 64 /\
  allocation enc maxBin (binCount (N.of_nat (length items)) maxBin dummies) items f /\
  forall rs out, balanced ord enc maxBin dummies items rs ≠ Done out.
Proof.
  exists exOrd, (fun x => x), 1, 0, [pairItem 1 0; pairItem 0 0], (fun i => if (i =? 0)%nat then 1 else 0).
  split; [apply exOrd_ok|]. split; [done|]. split; [done|]. split.
  - split.
    + intros i x H. destruct i as [|[|i]]; cbn in H; [injection H as <-; exists 0; by vm_compute|injection H as <-; exists 0; by vm_compute|done].
    + intros b. cbn [length seq]. rewrite !filter_cons, filter_nil. cbn [Nat.eqb]. destruct (decide (1 = b)) as [<-|]; [by vm_compute|]. destruct (decide (0 = b)); by vm_compute.
  - intros rs out. unfold balanced. change (numBinsOf _ _ _) with (Some 3). cbv iota. unfold insertItemsFrom, insertBins.
    assert (firstPass (map (binsOf (fun x => x) 3) [pairItem 1 0; pairItem 0 0]) 0 (newBins (N.to_nat 3)) =
      Some [mkBBin [(1%nat, [(1, 0%nat)]); (0%nat, [(1, 1%nat)])] [] 2; mkBBin [] [] 0; mkBBin [] [] 0]) as -> by (vm_compute; reflexivity).
    assert (scanLight exOrd 1 [mkBBin [(1%nat, [(1, 0%nat)]); (0%nat, [(1, 1%nat)])] [] 2; mkBBin [] [] 0; mkBBin [] [] 0] = stuck0) as -> by (vm_compute; reflexivity).
    assert (scanHeavy 1 [mkBBin [(1%nat, [(1, 0%nat)]); (0%nat, [(1, 1%nat)])] [] 2; mkBBin [] [] 0; mkBBin [] [] 0] = [0%nat]) as -> by (vm_compute; reflexivity).
    destruct (balance _ _ _ _ _) eqn:E; try done. by apply stuck0_loop in E.
Qed.
Print Assumptions C56_terminates_refuted.

(** If the greedy allocation of the first pass keeps to the bound, the insertion ends. *)
Theorem C56_terminates_partial ord enc maxBin dummies items rs :
  anyOrder ord -> dummies < maxBin -> maxBin < 2 ^ 64 -> 
  Forall (fun c => c <= maxBin) (greedyLoads enc (binCount (N.of_nat (length items)) maxBin dummies) items) ->
  exists out, balanced ord enc maxBin dummies items rs = Done out.
Proof. intros HO H1 H2 HN. destruct (balanced_light ord enc maxBin dummies items rs HO H1 H2 HN) as (out & E & _). by exists out. Qed.
Print Assumptions C56_terminates_partial.

(** * C85: reuse of an object *)

(** One item each time: the second time the bin lists the old entry twice and the new one. *)
Theorem C85_reuse_refuted : exists ord enc maxBin dummies items1 items2 rs1 rs2 out,
  anyOrder ord /\ dummies < maxBin /\ maxBin < 2 ^ 64 /\
  balancedTwice ord enc maxBin dummies items1 items2 rs1 rs2 = Done out /\ ~ allPlaced (length items2) out.
Proof.
  exists exOrd, (fun x => x), 4, 0, [pairItem 0 0], [pairItem 0 0], [], []. eexists. split; [apply exOrd_ok|]. split; [done|]. split; [done|].
  split; [vm_compute; reflexivity|]. intros H. apply Permutation_length in H. vm_compute in H. discriminate.
Qed.
Print Assumptions C85_reuse_refuted.
