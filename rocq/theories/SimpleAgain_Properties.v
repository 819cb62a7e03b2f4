(** C181: an index that is initialised again. *)
From Verif Require Import Base SimpleIndex_Model SimpleIndex_Spec SimpleAgain_Model SimpleAgain_Spec SimpleAgain_Proofs.
Open Scope N_scope.

(** An index of three bins with room for six entries each, used for two items. *)
Definition agEnc (x : N) : N := (x * 0x9e3779b97f4a7c15f39cc0605cedc835) mod 2 ^ 128.
Definition agFirst : SIndex := match siInsert agEnc (siInit 3 2 2 3) [5; 6] with Done s => s | _ => siInit 0 0 0 0 end.

Definition agNine : SIndex := match siInsert agEnc (siInit 3 2 2 3) [9] with Done s => s | _ => siInit 0 0 0 0 end.

(** Whatever the table cells hold after the second [init]: the entries of the first use are still counted. *)
Theorem C181_again_refuted :
  exists enc s0 nb n H mx xs1 xs s, siInsert enc (siInit nb n H mx) xs1 = Done s0 /\ siInsert enc (siInit nb n H mx) xs = Done s /\
    forall cells mp, shaped cells nb mx -> shaped mp n H ->
      match siInsert enc (siAgain s0 cells mp nb H) xs with Done s' => ~ sameBins s s' | UB => True | _ => False end.
Proof.
  exists agEnc, agFirst, 3, 2, 2, 3, [5; 6], [9], agNine. split; [vm_compute; reflexivity|].
  assert (siInsert agEnc (siInit 3 2 2 3) [9] = Done agNine) as E9 by (vm_compute; reflexivity). split; [exact E9|].
  apply (again_more agEnc agFirst 3 2 2 3 [9] agNine 1).
  - vm_compute. lia.
  - vm_compute. lia.
  - intros [|[|[|b]]]; vm_compute; lia.
  - exact E9.
Qed.
Print Assumptions C181_again_refuted.

(** The same items in the same index once more: a run that is defined on a new index overflows a bin. *)
Theorem C181_overflow_refuted :
  exists enc s0 nb n H mx xs, siInsert enc (siInit nb n H mx) xs = Done s0 /\
    (forall b, (sizeOf s0 b <= N.to_nat mx)%nat) /\
    siInsert enc (siAgain s0 (siBins s0) (siMap s0) nb H) xs = UB.
Proof.
  exists agEnc, agFirst, 3, 2, 2, 3, [5; 6]. split; [vm_compute; reflexivity|].
  split; [|vm_compute; reflexivity]. intros [|[|[|b]]]; vm_compute; lia.
Qed.
Print Assumptions C181_overflow_refuted.

(** What the bins hold after a second use that is defined: as many cells as the bin had entries before, then the new entries. *)
Theorem C181_again enc s0 cells mp nb n H mx xs s s' :
  shaped cells nb mx -> (forall b, (sizeOf s0 b <= N.to_nat mx)%nat) ->
  siInsert enc (siInit nb n H mx) xs = Done s -> siInsert enc (siAgain s0 cells mp nb H) xs = Done s' ->
  forall b, (b < N.to_nat nb)%nat -> binEntries s' b = map decodeItem (take (sizeOf s0 b) (default [] (cells !! b))) ++ binEntries s b.
Proof. exact (fun Sh F E1 E2 => again_bins enc s0 cells mp nb n H mx Sh F xs s s' E1 E2). Qed.
Print Assumptions C181_again.

(** An index whose bins are empty can be initialised again, whatever the cells hold. *)
Theorem C181_again_partial enc s0 cells mp nb n H mx xs s s' :
  shaped cells nb mx -> (forall b, (b < N.to_nat nb)%nat -> sizeOf s0 b = 0%nat) ->
  siInsert enc (siInit nb n H mx) xs = Done s -> siInsert enc (siAgain s0 cells mp nb H) xs = Done s' -> sameBins s s'.
Proof. exact (again_empty enc s0 cells mp nb n H mx xs s s'). Qed.
Print Assumptions C181_again_partial.

Example C181_example :
  exists s s', siInsert agEnc (siInit 3 2 2 6) [9; 10] = Done s /\
    siInsert agEnc (siAgain agFirst (replicate 3 (replicate 6 77)) (replicate 2 [1; 1]) 3 2) [9; 10] = Done s' /\
    map (binEntries s) [0; 1; 2]%nat <> map (binEntries s') [0; 1; 2]%nat /\ sizeOf agFirst 1 = 2%nat.
Proof. eexists. eexists. split; [vm_compute; reflexivity|]. split; [vm_compute; reflexivity|]. split; vm_compute; done. Qed.
Example C181_example_partial :
  exists s s', siInsert agEnc (siInit 3 2 2 6) [9; 10] = Done s /\
    siInsert agEnc (siAgain (siInit 5 1 2 1) (replicate 3 (replicate 6 77)) (replicate 2 [1; 1]) 3 2) [9; 10] = Done s' /\
    length (binEntries s' 0) = 3%nat /\ length (binEntries s' 1) = 1%nat.
Proof. eexists. eexists. split; [vm_compute; reflexivity|]. split; [vm_compute; reflexivity|]. split; vm_compute; done. Qed.
