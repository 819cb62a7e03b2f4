(** Property theorems about what the receiver's messages in DKT reveal (C165). *)
From Verif Require Import Base Ecdh_Model Dkt_Model Dkt_Spec Dkt_Proofs Dkt_Properties DktForge_Spec DktForge_Properties DktHide_Spec DktHide_Proofs.

(** C165: the receiver's messages do not depend on its set. False: the commitments [sigmaA] and [sigmaB] are sent apart from each other, and each response
    with its commitment and the challenge gives the multiple of the generator that masks the points. *)
Definition r165 : recvRnd E11 := mkRecvRnd E11 (f11 4) (fun t => f11 (5 + N.of_nat t)) (rDs r11) (rRcs r11).
Theorem C165_hidden_refuted : exists D r xs xs', dktLaws D /\ primeOrder D /\ length xs = length xs' /\
  let m1 := recvFirst D r [xs] in forall r', ¬ (recvFirst D r' [xs'] = m1 /\ recvSecond D r' (recvFirst D r' [xs']) = recvSecond D r m1).
Proof.
  exists E11, r165, [3; 5], [3; 8]. split; [apply D11_laws|]. split; [apply D11_prime|]. split; [done|]. intros m1 r' [E1 E2].
  destruct (same_sum E11 (D11_laws _ _) r165 r' [3; 5] [3; 8] [] [] (inv11 (challenge E11 (m1A m1) (entries tripleB (m1Items m1))))) as (p & (x & l & [= <- <-] & ->) & (x' & l' & [= <- <-] & E)); [done|done| |done|done|].
  - intros a. change (chal E11 r165 [[3; 5]]) with (challenge E11 (m1A m1) (entries tripleB (m1Items m1))).
    assert (challenge E11 (m1A m1) (entries tripleB (m1Items m1)) = f11 3) as -> by (apply v11_inj; vm_compute; reflexivity).
    apply v11_inj, N.eqb_eq. refine (by11 (fun a _ _ => (((a * 3) mod 11) * 4) mod 11 =? a) _ a a a). vm_compute. reflexivity.
  - apply (f_equal v11) in E. vm_compute in E. discriminate E.
Qed.
Print Assumptions C165_hidden_refuted.
(** In general, from a challenge that can be inverted: the sum of the points of the first thread, which is the only one if there is one channel ... *)
Theorem C165_sum_refuted : forall D, dktLaws D -> forall r x xs items v, let m1 := recvFirst D r ((x :: xs) :: items) in let m2 := recvSecond D r m1 in
  undoes D (challenge D (m1A m1) (entries tripleB (m1Items m1))) v -> isSum D (x :: xs) (psub D (m1X m1) (opened D v (gen D) (m1A m1) (m2Phi m2))).
Proof. exact (fun D HL r x xs items v => sum_first D HL r x xs items v). Qed.
Print Assumptions C165_sum_refuted.
(** ... the sum of the points of any thread, from any of its items (if the sender has the same [ggg]) ... *)
Theorem C165_thread_refuted : forall D, dktLaws D -> forall r items v t k x xs, let m1 := recvFirst D r items in let m2 := recvSecond D r m1 in
  undoes D (challenge D (m1A m1) (entries tripleB (m1Items m1))) v -> items !! t = Some (x :: xs) -> (k < length (x :: xs))%nat ->
  exists it phi, entryAt (m1Items m1) t k = Some it /\ entryAt (m2Phis m2) t k = Some phi /\
    isSum D (x :: xs) (psub D (padd D (tripleM it) (tripleN it)) (opened D v (padd D (gg D) (gggR D)) (tripleB it) phi)).
Proof. exact (fun D HL r items v t k x xs => sum_thread D HL r items v t k x xs). Qed.
Print Assumptions C165_thread_refuted.
(** ... and, if the point [ggg] that is never assigned is the neutral one, the point of the last item of each thread ... *)
Theorem C165_last_refuted : forall D, dktLaws D -> neutral D (gggR D) -> forall r items v t k x xs, let m1 := recvFirst D r items in let m2 := recvSecond D r m1 in
  undoes D (challenge D (m1A m1) (entries tripleB (m1Items m1))) v -> items !! t = Some xs -> last xs = Some x -> (k < length xs)%nat ->
  exists it phi, entryAt (m1Items m1) t k = Some it /\ entryAt (m2Phis m2) t k = Some phi /\ psub D (tripleM it) (opened D v (gg D) (tripleB it) phi) = ptOf D x.
Proof. exact (fun D HL Hn r items v t k x xs => last_item D HL r items v t k x xs Hn). Qed.
Print Assumptions C165_last_refuted.
(** ... and, without the proof, the sum of the points of the other items. *)
Theorem C165_others_refuted : forall D, dktLaws D -> neutral D (gggR D) -> forall r items t k x y xs,
  items !! t = Some (x :: xs ++ [y]) -> (k < length (x :: xs ++ [y]))%nat ->
  exists it, entryAt (m1Items (recvFirst D r items)) t k = Some it /\ isSum D (x :: xs) (tripleN it).
Proof. exact (fun D HL Hn r items t k x y xs => other_items D HL r items t k x y xs Hn). Qed.
Print Assumptions C165_others_refuted.
(** What holds: the first message without the points [N] comes from any other set of the same shape for exactly one choice of the masks. *)
Theorem C165_first_partial : forall D, dktLaws D -> forall logG logGG r items items', generates D (gen D) logG -> generates D (gg D) logGG -> map length items = map length items' ->
  exists Rc' Rcs', forall r', (forall t, rD r' t = rD r t) -> (forall t k, rDs r' t k = rDs r t k) ->
    (m1X (recvFirst D r' items') = m1X (recvFirst D r items) /\ m1A (recvFirst D r' items') = m1A (recvFirst D r items) /\
      entries tripleM (m1Items (recvFirst D r' items')) = entries tripleM (m1Items (recvFirst D r items)) /\
      entries tripleB (m1Items (recvFirst D r' items')) = entries tripleB (m1Items (recvFirst D r items))) <->
    rRc r' = Rc' /\ forall t k xs, items !! t = Some xs -> (k < length xs)%nat -> rRcs r' t k = Rcs' t k.
Proof. exact first_hides. Qed.
Print Assumptions C165_first_partial.
(** The logarithms of the group of order 11; a run with [ggg] neutral in which the sender finds the point of the last item, 8, and of the first one, 3. *)
Definition E0 : dkt := D11 0 0.
Definition r0 : recvRnd E0 := mkRecvRnd E0 (rRc r165) (rD r165) (rDs r11) (rRcs r11).
Example C165_example : generates E11 (gen E11) (fun p => p) /\ generates E11 (gg E11) (fun p => f11 (4 * v11 p)) /\ neutral E0 (gggR E0) /\
  let m1 := recvFirst E0 r0 [[3; 8]] in let m2 := recvSecond E0 r0 m1 in let v := inv11 (challenge E0 (m1A m1) (entries tripleB (m1Items m1))) in
  undoes E0 (challenge E0 (m1A m1) (entries tripleB (m1Items m1))) v /\
  map (fun i => v11 (@tripleN E0 i)) (default [] (head (m1Items m1))) = [v11 (ptOf E0 3); v11 (ptOf E0 3)] /\
  zip_with (fun i phi => v11 (psub E0 (@tripleM E0 i) (opened E0 v (gg E0) (@tripleB E0 i) phi))) (default [] (head (m1Items m1))) (default [] (head (m2Phis m2))) = [v11 (ptOf E0 8); v11 (ptOf E0 8)] /\
  v11 (ptOf E0 3) <> v11 (ptOf E0 8).
Proof.
  split.
  { intros p l. split.
    - intros <-. apply v11_inj, N.eqb_eq. refine (by11 (fun a _ _ => a =? (1 * a) mod 11) _ l l l). vm_compute. reflexivity.
    - intros ->. apply v11_inj, N.eqb_eq. refine (by11 (fun a _ _ => (1 * a) mod 11 =? a) _ p p p). vm_compute. reflexivity. }
  split.
  { intros p l. split.
    - intros <-. apply v11_inj, N.eqb_eq. refine (by11 (fun a _ _ => a =? (4 * ((3 * a) mod 11)) mod 11) _ l l l). vm_compute. reflexivity.
    - intros ->. apply v11_inj, N.eqb_eq. refine (by11 (fun a _ _ => (3 * ((4 * a) mod 11)) mod 11 =? a) _ p p p). vm_compute. reflexivity. }
  split. { intros a k. apply v11_inj, N.eqb_eq. refine (by11 (fun a k _ => (a + (0 * k) mod 11) mod 11 =? a) _ a k k). vm_compute. reflexivity. }
  intros m1 m2 v. split.
  { intros a. unfold v. clearbody v. remember (challenge E0 (m1A m1) (entries tripleB (m1Items m1))) as e eqn:Ee. assert (v11 e <> 0) as He by (rewrite Ee; vm_compute; discriminate).
    apply v11_inj, N.eqb_eq. pose proof (by11 (fun a e _ => orb (e =? 0) ((((a * e) mod 11) * ((e ^ 9) mod 11)) mod 11 =? a)) eq_refl a e e) as H. cbn beta in H.
    apply N.eqb_neq in He. rewrite He in H. exact H. }
  split; [vm_compute; reflexivity|]. split; [vm_compute; reflexivity|]. vm_compute. discriminate.
Qed.
