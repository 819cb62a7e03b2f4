(** Property theorems: the rows of the sender of RR17a show the common items and nothing else (C169). *)
From Verif Require Import Base Rr17_Model Rr17a_Model Rr17a_Spec Order_Spec OrderRr17_Spec Reveal_Spec RevealRr17_Spec RevealRr17_Proofs.
From Verif Require Rr17a_Properties OrderRr17_Properties.

(** * C169 *)

(** Two sets of the sender with the same common items, any schedules. Relabelling the sender's permutations, renaming the encodings away
    from the receiver's choices [K] and shifting them there by fixed numbers of 128 bits gives the same rows. *)
Theorem C169_only_common P K R S S' ord ord' pls pls' : sameCommon R S S' -> paramsOk P S -> paramsOk P S' -> distinctInputs P S -> distinctInputs P S' ->
  choosesOwn P K R (S ++ S') ->
  ord ≡ₚ seq 0 (pN P) -> ord' ≡ₚ seq 0 (pN P) -> pls ≡ₚ places (pCap P) (pNb P) (pT P) -> pls' ≡ₚ places (pCap P) (pNb P) (pT P) ->
  exists h hb s, relabels (pN P) h /\ (forall b, (b < pNb P)%nat -> relabels (pCap P) (hb b)) /\ renaming s /\ (forall a, a ∈ K -> s a = a) /\
    forall rd rd', randOk P rd -> randOk P rd' -> rOrdS rd = ord -> rOrdS rd' = ord' -> rPlaces rd = pls -> rPlaces rd' = pls' ->
      (forall k, (k < pN P)%nat -> rMaskPerm rd' !! h k = rMaskPerm rd !! k) -> (forall b, (b < pNb P)%nat -> rShuf rd' b = map (hb b) (rShuf rd b)) ->
      exists d, (forall a, a ∈ K -> d a = 0) /\ (forall a, d a < 2 ^ 128) /\
        forall w, exists rows, sentA (withEncR P w) rd S = Some rows /\ sentA (withEncR P (fun a => N.lxor (w (s a)) (d a))) rd' S' = Some rows.
Proof. exact (rr17a_reveals P K R S S' ord ord' pls pls'). Qed.
Print Assumptions C169_only_common.
(** The choices of a receiver that follows the protocol are as required. *)
Theorem C169_honest P rd R l K : paramsOk P R -> randOk P rd -> distinctInputs P (R ++ l) -> choices P rd R = Some K -> choosesOwn P K R l.
Proof. exact (honest_choices P rd R l K). Qed.
Print Assumptions C169_honest.
(** Nothing else of the encodings enters what it reports. *)
Theorem C169_output P rd rd' R S S' old K w w' rows : length S' = length S -> rDraw rd' = rDraw rd -> rOrdR rd' = rOrdR rd -> rOut rd' = rOut rd ->
  choices P rd R = Some K -> (forall a, a ∈ K -> w' a = w a) -> sentA (withEncR P w) rd S = Some rows -> sentA (withEncR P w') rd' S' = Some rows ->
  (exists res, rr17aRun (withEncR P w) rd R S old = Done res) ->
  exists res res', rr17aRun (withEncR P w) rd R S old = Done res /\ rr17aRun (withEncR P w') rd' R S' old = Done res' /\ resOut res' = resOut res /\ resR res' = resR res.
Proof. exact (rr17a_output P rd rd' R S S' old K w w' rows). Qed.
Print Assumptions C169_output.

Definition exP := OrderRr17_Properties.exPa.
Definition exRd := Rr17a_Properties.exRd 4 4 3 1.
Definition exK : list (nat * nat * N) := default [] (choices exP exRd OrderRr17_Properties.exRa).
Example C169_example : sameCommon OrderRr17_Properties.exRa OrderRr17_Properties.exSa OrderRr17_Properties.exSa' /\
  paramsOk exP OrderRr17_Properties.exRa /\ paramsOk exP OrderRr17_Properties.exSa /\ paramsOk exP OrderRr17_Properties.exSa' /\ randOk exP exRd /\
  distinctInputs exP (OrderRr17_Properties.exRa ++ OrderRr17_Properties.exSa ++ OrderRr17_Properties.exSa') /\
  choices exP exRd OrderRr17_Properties.exRa = Some exK /\ length exK = 4%nat /\
  forall w, exists rows, sentA (withEncR exP w) exRd OrderRr17_Properties.exSa = Some rows /\ length rows = 4%nat.
Proof.
  destruct OrderRr17_Properties.C152_example as (E1 & E2 & E3 & _ & E5). split; [exact E1|]. split; [by apply Rr17a_Properties.paramsOkb_ok; vm_compute|]. split; [exact E2|]. split; [exact E3|]. split; [exact E5|].
  split.
  { assert (Forall (fun x => Forall (fun y => itemBin exP x = itemBin exP y -> nco exP x = nco exP y -> x = y) (OrderRr17_Properties.exRa ++ OrderRr17_Properties.exSa ++ OrderRr17_Properties.exSa'))
      (OrderRr17_Properties.exRa ++ OrderRr17_Properties.exSa ++ OrderRr17_Properties.exSa')) as F by (apply (bool_decide_unpack _); vm_compute; done).
    intros x y Hx Hy. rewrite Forall_forall in F. specialize (F x Hx). rewrite Forall_forall in F. by apply F. }
  split; [by vm_compute|]. split; [by vm_compute|]. intros w. eexists. split; [vm_compute; reflexivity|done].
Qed.
