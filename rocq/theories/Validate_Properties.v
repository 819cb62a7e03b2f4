(** C205: what the self-check [validate] of the cuckoo index accepts. *)
From Verif Require Import Base CuckooIndex_Model CuckooIndex_Spec Validate_Model Validate_Spec Validate_Proofs.

(** Whatever the contents of the object: it returns when the bins hold exactly the inputs, each once
    and where a hash function puts it, and throws otherwise. *)
Theorem C205_validate_exact_partial enc c xs :
  0 < pNumBins (cParams c) -> N.of_nat (length (cBins c)) = pNumBins (cParams c) ->
  pNumHashes (cParams c) <= 5 -> (length xs <= length (cHashes c))%nat -> noReserved enc xs ->
  (binsHold enc c xs -> validate enc c xs = Done tt) /\
  (~ binsHold enc c xs -> validate enc c xs = Thrown tt).
Proof. exact (validate_exact enc c xs). Qed.
Print Assumptions C205_validate_exact_partial.

(** After [insert] on a fresh object: accepted if and only if the stash is empty. *)
Theorem C205_validate_filled_partial enc p lim c0 xs c :
  legalParams p -> init p (constructed lim) = Done c0 ->
  (length xs <= pN p)%nat -> N.of_nat (pN p) < 2 ^ 56 -> noReserved enc xs ->
  insertItems enc c0 xs 0 = Done c ->
  (Forall (fun w => entryOf w = None) (cStash c) -> validate enc c xs = Done tt) /\
  (~ Forall (fun w => entryOf w = None) (cStash c) -> validate enc c xs = Thrown tt).
Proof. exact (validate_filled enc p lim c0 xs c). Qed.
Print Assumptions C205_validate_filled_partial.

(** Toy hash: the hash block of [x] is [x * 65537]. *)
Definition vEnc (x : N) : N := N.lxor x (x * 65537).

(** Three items in two bins and one stash slot: all three are stored, [validate] throws. *)
Theorem C205_stash_refuted :
  exists p c0 c xs, legalParams p /\ init p (constructed 5) = Done c0 /\
    (length xs <= pN p)%nat /\ noReserved vEnc xs /\
    insertItems vEnc c0 xs 0 = Done c /\
    (forall i, times (storedIndices c) i = if decide (i < N.of_nat (length xs)) then 1%nat else 0%nat) /\
    validate vEnc c xs = Thrown tt.
Proof.
  set (p := mkParam 1 2 2 10). set (xs := [1; 2; 3]).
  destruct (init p (constructed 5)) as [c0| | |] eqn:E0; try (vm_compute in E0; discriminate).
  destruct (insertItems vEnc c0 xs 0) as [c| | |] eqn:E1;
    try (vm_compute in E0; injection E0 as <-; vm_compute in E1; discriminate).
  exists p, c0, c, xs. split; [split; vm_compute; [reflexivity|split; discriminate]|].
  split; [done|]. split; [vm_compute; lia|].
  split; [repeat (apply Forall_cons; split; [vm_compute; discriminate|]); apply Forall_nil; exact I|].
  split; [done|]. split.
  - apply (CuckooIndex_Proofs.cuckoo_insert_items vEnc p 5 c0 xs c); try done. vm_compute. lia.
  - vm_compute in E0. injection E0 as <-. vm_compute in E1. injection E1 as <-. vm_compute. reflexivity.
Qed.
Print Assumptions C205_stash_refuted.

(** An input whose hash is the block of 128 ones is inserted but not counted: [validate] throws
    although the only input is in its bin. *)
Theorem C205_reserved_refuted :
  exists enc p c0 c xs, legalParams p /\ init p (constructed 5) = Done c0 /\
    insertItems enc c0 xs 0 = Done c /\ binsHold enc c xs /\
    Forall (fun w => entryOf w = None) (cStash c) /\ validate enc c xs = Thrown tt.
Proof.
  exists (fun x => N.lxor x (2 ^ 128 - 1)), (mkParam 0 4 3 4).
  eexists _, _, [7]. split; [split; vm_compute; [reflexivity|split; discriminate]|].
  split; [reflexivity|]. split; [vm_compute; reflexivity|]. split; [|split].
  - split; [|split].
    + intros [|i] x Hx; [|done]. injection Hx as <-. vm_compute. reflexivity.
    + vm_compute. reflexivity.
    + intros a w i j Ha He. destruct a as [|[|[|[|a]]]]; cbn in Ha; try done; injection Ha as <-;
        vm_compute in He; try discriminate. injection He as <- <-.
      exists 7, 0. split; [done|]. split; [done|]. vm_compute. reflexivity.
  - apply Forall_nil. exact I.
  - vm_compute. reflexivity.
Qed.
Print Assumptions C205_reserved_refuted.

(** The stash is not looked at: an object with item 0 both in a bin and in the stash is accepted. *)
Theorem C205_duplicate_refuted :
  exists enc c xs, noReserved enc xs /\ validate enc c xs = Done tt /\ times (storedIndices c) 0 = 2%nat.
Proof.
  exists vEnc, (mkCuckoo (mkParam 1 4 3 4) 5 [65537; 0; 0; 0] [u64max; 0; u64max; u64max] [0]), [1].
  split; [apply Forall_cons; split; [vm_compute; discriminate|by apply Forall_nil]|].
  split; vm_compute; reflexivity.
Qed.
Print Assumptions C205_duplicate_refuted.

(** Five inputs in 12 bins: accepted; with the word of the first one moved elsewhere, or a second
    copy of it: rejected. *)
Definition vFilled : outcome Cuckoo :=
  match init (mkParam 1 12 3 9) (constructed 50) with
  | Done c0 => insertItems vEnc c0 [11; 12; 13; 14; 15] 0
  | o => o
  end.
Example C205_example :
  match vFilled with
  | Done c => validate vEnc c [11; 12; 13; 14; 15] = Done tt /\
              validate vEnc c [11; 12; 13; 14; 16] = Thrown tt /\
              validate vEnc c [11; 12; 13; 14] = Thrown tt /\
              validate vEnc (mkCuckoo (cParams c) (cLimit c) (cHashes c) (reverse (cBins c)) (cStash c)) [11; 12; 13; 14; 15] = Thrown tt
  | _ => False
  end.
Proof. vm_compute. split; [reflexivity|]. split; [reflexivity|]. split; reflexivity. Qed.
Example C205_exact_example :
  match vFilled with
  | Done c => 0 < pNumBins (cParams c) /\ N.of_nat (length (cBins c)) = pNumBins (cParams c) /\
              pNumHashes (cParams c) <= 5 /\ (5 <= length (cHashes c))%nat /\ noReserved vEnc [11; 12; 13; 14; 15] /\
              Forall (fun w => entryOf w = None) (cStash c)
  | _ => False
  end.
Proof.
  vm_compute. split; [reflexivity|]. split; [reflexivity|]. split; [discriminate|]. split; [repeat constructor|].
  split; [repeat (apply Forall_cons; split; [discriminate|]); apply Forall_nil; exact I|].
  apply Forall_cons; split; [reflexivity|apply Forall_nil; exact I].
Qed.
