(** Property theorems about the places of the masks of RR17b (C151) and RR17a (C152). *)
From Verif Require Import Base Rr17_Model Order_Spec OrderRr17_Spec.
From Verif Require Rr17a_Model Rr17a_Spec Rr17b_Model Rr17b_Spec OrderRr17a_Proofs OrderRr17b_Proofs Rr17a_Properties Rr17b_Properties.

(** * C151 *)

Theorem C151_hidden P R S S' : sameCommon R S S' -> Rr17b_Spec.paramsOk P S -> Rr17b_Spec.paramsOk P S' ->
  exists h, relabels (Rr17b_Model.pN P) h /\
    forall rd rd', Rr17b_Spec.randOk P rd -> Rr17b_Spec.randOk P rd' -> Rr17b_Spec.binding P rd R S -> Rr17b_Spec.binding P rd' R S' ->
      (forall j, (j < Rr17b_Model.pN P)%nat -> Rr17b_Model.rPerm rd' !! h j = Rr17b_Model.rPerm rd !! j /\ Rr17b_Model.rDec rd' (h j) = Rr17b_Model.rDec rd j) ->
      exists rows rows', sentB P rd S = Some rows /\ sentB P rd' S' = Some rows' /\ looksAlike (opens P R) rows rows'.
Proof. exact (OrderRr17b_Proofs.rr17b_hidden P R S S'). Qed.
Print Assumptions C151_hidden.
Definition exS' : list N := [1; 25; 3; 9].
Definition exPb := Rr17b_Properties.exP true 4 4 3 1.
(** The same choices with other places for the masks. *)
Example C151_example : sameCommon Rr17b_Properties.exSetR Rr17b_Properties.exSetS exS' /\ Rr17b_Spec.paramsOk exPb Rr17b_Properties.exSetS /\ Rr17b_Spec.paramsOk exPb exS' /\
  Rr17b_Spec.randOk exPb (Rr17b_Properties.exRd 4 4 3 1) /\
  Rr17b_Spec.binding exPb (Rr17b_Properties.exRd 4 4 3 1) Rr17b_Properties.exSetR Rr17b_Properties.exSetS /\
  Rr17b_Spec.binding exPb (Rr17b_Properties.exRd 4 4 3 1) Rr17b_Properties.exSetR exS'.
Proof.
  split.
  { split; [apply (bool_decide_unpack _); vm_compute; done|]. split; [apply (bool_decide_unpack _); vm_compute; done|]. split; [done|].
    assert (Forall (fun x => x ∈ Rr17b_Properties.exSetS <-> x ∈ exS') Rr17b_Properties.exSetR) as Fa by (apply (bool_decide_unpack _); vm_compute; done).
    by rewrite Forall_forall in Fa. }
  split; [by apply Rr17b_Properties.exP_ok; vm_compute|]. split; [by apply Rr17b_Properties.exP_ok; vm_compute|]. split; [by apply Rr17b_Properties.exRd_ok; vm_compute|].
  split; apply Rr17b_Properties.exBinding; repeat constructor.
Qed.

(** * C152 *)

(** For fixed orders of the threads. *)
Theorem C152_hidden P R S S' ord ord' pls pls' : sameCommon R S S' -> Rr17a_Spec.paramsOk P S -> Rr17a_Spec.paramsOk P S' -> noSharedMask P R (S ++ S') ->
  ord ≡ₚ seq 0 (Rr17a_Model.pN P) -> ord' ≡ₚ seq 0 (Rr17a_Model.pN P) ->
  pls ≡ₚ places (Rr17a_Model.pCap P) (Rr17a_Model.pNb P) (Rr17a_Model.pT P) -> pls' ≡ₚ places (Rr17a_Model.pCap P) (Rr17a_Model.pNb P) (Rr17a_Model.pT P) ->
  exists h hb, relabels (Rr17a_Model.pN P) h /\ (forall b, (b < Rr17a_Model.pNb P)%nat -> relabels (Rr17a_Model.pCap P) (hb b)) /\
    forall rd rd', Rr17a_Spec.randOk P rd -> Rr17a_Spec.randOk P rd' -> Rr17a_Model.rOrdS rd = ord -> Rr17a_Model.rOrdS rd' = ord' ->
      Rr17a_Model.rPlaces rd = pls -> Rr17a_Model.rPlaces rd' = pls' ->
      (forall k, (k < Rr17a_Model.pN P)%nat -> Rr17a_Model.rMaskPerm rd' !! h k = Rr17a_Model.rMaskPerm rd !! k) ->
      (forall b, (b < Rr17a_Model.pNb P)%nat -> Rr17a_Model.rShuf rd' b = map (hb b) (Rr17a_Model.rShuf rd b)) ->
      exists rows rows', sentA P rd S = Some rows /\ sentA P rd' S' = Some rows' /\ looksAlike (maskOfSome P R) (concat rows) (concat rows').
Proof. exact (OrderRr17a_Proofs.rr17a_hidden P R S S' ord ord' pls pls'). Qed.
Print Assumptions C152_hidden.
Definition exPa := Rr17a_Properties.exP false 4 4 3 1.
Definition exRa : list N := [4; 9; 17; 25].
Definition exSa : list N := [9; 30; 25; 2].
Definition exSa' : list N := [35; 25; 41; 9].
Lemma exMask x m : Rr17a_Model.nco exPa x < 2 ^ 20 -> maskOf exPa x m -> m / 2 ^ 32 = Rr17a_Model.nco exPa x + 1.
Proof.
  set (x' := Rr17a_Model.nco exPa x). intros Hx (t & base & l1 & l2 & Hp & H1 & H2 & ->). fold x'. clearbody x'.
  assert (t = 0 /\ base < 12)%nat as [-> Hb].
  { assert (Forall (fun p => p.1.1 = 0 /\ p.2 < 12)%nat (places 3 4 1)) as Fa by (apply (bool_decide_unpack _); vm_compute; done).
    rewrite Forall_forall in Fa. apply (Fa _ Hp). }
  change (Rr17a_Model.pCap exPa) with 3%nat in H1, H2. change (Rr17a_Model.pMask exPa) with 7.
  unfold exPa, Rr17a_Properties.exP. cbn [Rr17a_Model.pEncR Rr17a_Model.pEncS]. unfold Rr17a_Properties.exEncR, Rr17a_Properties.exEncS.
  change (8 * 7) with (32 + 24). rewrite <- N.shiftr_div_pow2, <- N.land_ones, N.shiftr_land, N.shiftr_lxor.
  replace (N.shiftr (N.ones (32 + 24)) 32) with (N.ones 24) by (by vm_compute). rewrite N.land_ones, !N.shiftr_div_pow2.
  rewrite (N.div_small (N.of_nat (base + l2) * 2 ^ 16)) by lia. rewrite N.lxor_0_r. rewrite <- N.add_assoc, N.div_add_l by done.
  rewrite (N.div_small (_ + _)) by lia. rewrite N.mod_small; lia.
Qed.
Example C152_example : sameCommon exRa exSa exSa' /\ Rr17a_Spec.paramsOk exPa exSa /\ Rr17a_Spec.paramsOk exPa exSa' /\
  noSharedMask exPa exRa (exSa ++ exSa') /\ Rr17a_Spec.randOk exPa (Rr17a_Properties.exRd 4 4 3 1).
Proof.
  split.
  { split; [apply (bool_decide_unpack _); vm_compute; done|]. split; [apply (bool_decide_unpack _); vm_compute; done|]. split; [done|].
    assert (Forall (fun x => x ∈ exSa <-> x ∈ exSa') exRa) as Fa by (apply (bool_decide_unpack _); vm_compute; done).
    by rewrite Forall_forall in Fa. }
  split; [by apply Rr17a_Properties.paramsOkb_ok; vm_compute|]. split; [by apply Rr17a_Properties.paramsOkb_ok; vm_compute|]. split; [|apply Rr17a_Properties.exRd_ok].
  intros x y m Hx Hy Mx My.
  assert (Forall (fun x => Rr17a_Model.nco exPa x < 2 ^ 20) (exRa ++ exSa ++ exSa')) as Fa by (apply (bool_decide_unpack _); vm_compute; done). rewrite Forall_forall in Fa.
  assert (Forall (fun x => Forall (fun y => Rr17a_Model.nco exPa x = Rr17a_Model.nco exPa y -> x = y) (exSa ++ exSa')) exRa) as Fb by (apply (bool_decide_unpack _); vm_compute; done).
  rewrite Forall_forall in Fb. specialize (Fb x Hx). rewrite Forall_forall in Fb. apply (Fb y Hy).
  apply exMask in Mx; [|apply Fa, elem_of_app; auto]. apply exMask in My; [|apply Fa, elem_of_app; auto]. lia.
Qed.
