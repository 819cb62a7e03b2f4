(** Property theorems: the rows of the sender of RR17b show the common items and nothing else (C176). *)
From Verif Require Import Base Rr17_Model Rr17b_Model Rr17b_Spec Order_Spec OrderRr17_Spec Reveal_Spec RevealRr17b_Spec RevealRr17b_Proofs.
From Verif Require Rr17b_Properties OrderRr17_Properties.

(** * C176 *)

(** Two sets of the sender with the same common items, any schedules. Relabelling the sender's permutation and its decommitment values, renaming the
    encodings away from the receiver's choices [K] and the commitments away from the receiver's items gives the same rows. *)
Theorem C176_only_common P K R S S' : sameCommon R S S' -> paramsOk P S -> paramsOk P S' -> distinctInputs P S -> distinctInputs P S' -> choosesOwn P K R (S ++ S') ->
  exists h s u, relabels (pN P) h /\ renaming s /\ (forall a, a ∈ K -> s a = a) /\ renaming u /\ (forall x, x ∈ R -> u x = x) /\
    forall rd rd' w c, randOk P rd -> randOk P rd' -> sizesOk w c ->
      (forall j, (j < pN P)%nat -> rPerm rd' !! h j = rPerm rd !! j /\ rDec rd' (h j) = rDec rd j) ->
      exists rows, sentB (withFns P w c) rd S = Some rows /\ sentB (withFns P (fun a => w (s a)) (fun x => c (u x))) rd' S' = Some rows.
Proof. exact (rr17b_reveals P K R S S'). Qed.
Print Assumptions C176_only_common.
(** The choices of a receiver that follows the protocol are as required, when the sender and the receiver use the same OTs for the bins. *)
Theorem C176_honest P rd R l K : paramsOk P R -> randOk P rd -> (forall t, (t < pT P)%nat -> correctionsFit (pCap P) (pNb P) (pT P) t = true) ->
  distinctInputs P (R ++ l) -> choices P rd R = Some K -> choosesOwn P K R l.
Proof. exact (fun HR HD => honest_choices P rd R HR HD l K). Qed.
Print Assumptions C176_honest.
(** Nothing else of the encodings and commitments enters what it reports. *)
Theorem C176_output ss P rd rd' R S S' old K w w' c c' rows : paramsOk P R -> randOk P rd -> length S' = length S ->
  rDraw rd' = rDraw rd -> rOrdR rd' = rOrdR rd -> rSched rd' = rSched rd -> rTab rd' = rTab rd -> rOut rd' = rOut rd ->
  choices P rd R = Some K -> (forall a, a ∈ K -> w' a = w a) -> (forall x, x ∈ R -> c' x = c x) ->
  sentB (withFns P w c) rd S = Some rows -> sentB (withFns P w' c') rd' S' = Some rows ->
  rr17bRun ss (withFns P w' c') rd' R S' old = rr17bRun ss (withFns P w c) rd R S old.
Proof. exact (rr17b_output ss P rd rd' R S S' old K w w' c c' rows). Qed.
Print Assumptions C176_output.

Definition exP := OrderRr17_Properties.exPb.
Definition exRd := Rr17b_Properties.exRd 4 4 3 1.
Definition exR := Rr17b_Properties.exSetR.
Definition exS := Rr17b_Properties.exSetS.
Definition exS' := OrderRr17_Properties.exS'.
Definition exK : list (nat * nat * N) := default [] (choices exP exRd exR).
Example C176_example : sameCommon exR exS exS' /\ paramsOk exP exR /\ paramsOk exP exS /\ paramsOk exP exS' /\ randOk exP exRd /\ distinctInputs exP (exR ++ exS ++ exS') /\
  correctionsFit (pCap exP) (pNb exP) (pT exP) 0 = true /\ choices exP exRd exR = Some exK /\ length exK = 4%nat /\
  sizesOk (fun a => Rr17b_Properties.exEnc a.1.1 a.1.2 a.2) Rr17b_Properties.exCom /\
  (exists rows, sentB (withFns exP (fun a => Rr17b_Properties.exEnc a.1.1 a.1.2 a.2) Rr17b_Properties.exCom) exRd exS = Some rows /\ length rows = 4%nat) /\
  rr17bRun 3 (withFns exP (fun a => Rr17b_Properties.exEnc a.1.1 a.1.2 a.2) Rr17b_Properties.exCom) exRd exR exS [8] = Done [8; 3; 1].
Proof.
  destruct OrderRr17_Properties.C151_example as (E1 & E2 & E3 & E4 & _). split; [exact E1|]. split; [by apply Rr17b_Properties.exP_ok; vm_compute|]. split; [exact E2|]. split; [exact E3|]. split; [exact E4|].
  split.
  { assert (Forall (fun x => Forall (fun y => itemBin exP x = itemBin exP y -> otInput exP x = otInput exP y -> x = y) (exR ++ exS ++ exS')) (exR ++ exS ++ exS')) as F
      by (apply (bool_decide_unpack _); vm_compute; done).
    intros x y Hx Hy. rewrite Forall_forall in F. specialize (F x Hx). rewrite Forall_forall in F. by apply F. }
  split; [by vm_compute|]. split; [by vm_compute|]. split; [by vm_compute|]. split.
  { destruct E2 as (_ & _ & _ & _ & _ & _ & _ & _ & _ & B1 & B2). split; [intros a; apply (B1 a.1.1 a.1.2 a.2)|exact B2]. }
  split; [|by vm_compute]. eexists. split; [vm_compute; reflexivity|done].
Qed.
