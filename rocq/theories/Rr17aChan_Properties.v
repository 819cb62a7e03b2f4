(** Property theorems about RR17a with several channels (C175). *)
From Verif Require Import Base Dcw_Spec Rr17_Model Rr17a_Model Rr17a_Spec Rr17a_Properties Rr17aChan_Spec Rr17aChan_Proofs Rr17aChan_Proofs2.

(** With two channels or more (and two items per channel) every common item is missed for some permutation of the sender's masks, whatever
    the other random choices and schedules. *)
Theorem C175_permutation_refuted P rd R S old i j x : paramsOk P R -> paramsOk P S -> randOk P rd -> NoDup R -> NoDup S -> collisionFree P (remove_dups (R ++ S)) ->
  (2 <= pT P)%nat -> (2 * pT P <= pN P)%nat -> N.of_nat (pCap P) <= 2 ^ 20 -> R !! i = Some x -> S !! j = Some x ->
  exists perm new inR inS, perm ≡ₚ seq 0 (pN P) /\ rr17aRun P (withPerm rd perm) R S old = Done (mkResult (old ++ new) inR inS) /\ N.of_nat i ∉ new.
Proof. exact (run_miss P rd R S old i j x). Qed.
Print Assumptions C175_permutation_refuted.

(** What is reported: the row of masks of the sender's item [j] has the number [row j], one of its masks, the one in column [col j], is the mask the
    receiver knows, and neither depends on the permutation. The item is reported exactly if this mask travels on the channel of the thread that has the
    bin of the item. *)
Theorem C175_places_partial P rd R S old : paramsOk P R -> paramsOk P S -> randOk P rd -> NoDup R -> collisionFree P (remove_dups (R ++ S)) -> exists row col : nat -> nat,
  (forall j, (j < pN P)%nat -> (row j < pN P)%nat /\ (col j < pCap P)%nat) /\ (forall j j', (j < pN P)%nat -> (j' < pN P)%nat -> row j = row j' -> j = j') /\
  forall perm, perm ≡ₚ seq 0 (pN P) -> exists new inR inS, rr17aRun P (withPerm rd perm) R S old = Done (mkResult (old ++ new) inR inS) /\ new ⊆+ commonPositions R S /\
    forall i, N.of_nat i ∈ new <-> exists j x p t, R !! i = Some x /\ S !! j = Some x /\ perm !! row j = Some p /\ ownsBin (pNb P) (pT P) t (itemBin P x) /\
      channelOf (pN P * pCap P) (pT P) (p * pCap P + col j) = t.
Proof. exact (fun HR HS HD ND CF => run_places P rd R S old HR HS HD ND CF). Qed.
Print Assumptions C175_places_partial.

(** Four items, two channels; both common items are found, one, none. *)
Example C175_example : paramsOk (exP true 4 4 3 2) exSetR /\ paramsOk (exP true 4 4 3 2) exSetS /\ randOk (exP true 4 4 3 2) (exRd 4 4 3 2) /\ NoDup exSetR /\ NoDup exSetS /\
  collisionFree (exP true 4 4 3 2) (remove_dups (exSetR ++ exSetS)) /\ (2 <= 2)%nat /\ (2 * 2 <= 4)%nat /\ exSetR !! 1%nat = Some 9 /\ exSetS !! 0%nat = Some 9 /\
  map (fun perm => match rr17aRun (exP true 4 4 3 2) (withPerm (exRd 4 4 3 2) perm) exSetR exSetS [] with Done r => resOut r | _ => [] end) [[3; 2; 1; 0]; [1; 2; 0; 3]; [0; 1; 2; 3]; [2; 0; 1; 3]]%nat
    = [[1; 3]; [3]; []; [3]].
Proof.
  split; [by apply paramsOkb_ok; vm_compute|]. split; [by apply paramsOkb_ok; vm_compute|]. split; [apply exRd_ok|].
  split; [by apply (bool_decide_unpack _); vm_compute|]. split; [by apply (bool_decide_unpack _); vm_compute|]. split; [by apply (bool_decide_unpack _); vm_compute|].
  split; [lia|]. split; [lia|]. split; [done|]. split; [done|]. by vm_compute.
Qed.
