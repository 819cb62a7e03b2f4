(** Property theorems about DKT. *)
From Verif Require Import Base Ecdh_Model Dkt_Model Dkt_Spec Dkt_Proofs.

Definition E11 : dkt := D11 5 5.
Definition r11 : recvRnd E11 :=
  mkRecvRnd E11 (f11 4) (fun t => f11 (2 + N.of_nat t)) (fun t k => f11 (N.of_nat (t + 3 * k + 1))) (fun t k => f11 (N.of_nat (5 * t + 2 * k + 1))).
Definition s11 : sendRnd E11 := mkSendRnd E11 (f11 2) (f11 7).

(** C51: every common item is found. False: all items of a thread are masked with the point of its last item. *)
Theorem C51_complete_refuted : exists D r s T R S out v i x,
  dktLaws D /\ primeOrder D /\ (0 < T)%nat /\ length S = length R /\ NoDup R /\ NoDup S /\ keysDistinct D s T R /\ roInjective D s R S /\
  dktRun D r s T R S [] = Done (out, v) /\ R !! i = Some x /\ x ∈ S /\ N.of_nat i ∉ out.
Proof.
  exists E11, r11, s11, 1%nat, [3; 5], [3; 7], [], [[true; true]], 0%nat, 3.
  split; [apply D11_laws|]. split; [apply D11_prime|]. split; [lia|]. split; [done|].
  split; [by apply (bool_decide_unpack _)|]. split; [by apply (bool_decide_unpack _)|].
  split; [apply keys_check; [lia|done|vm_compute; done]|]. split; [apply ro_check; vm_compute; done|].
  split; [vm_compute; done|]. split; [done|]. split; [left|apply not_elem_of_nil].
Qed.
Print Assumptions C51_complete_refuted.

(** What holds: the item at the end of a thread's range is found if it is common. Missing: the other items. *)
Theorem C51_complete_partial : forall D, dktLaws D -> forall T r s R S, length S = length R -> (0 < T)%nat ->
  N.of_nat (length R) * N.of_nat T < 2 ^ 64 -> forall old, keysDistinct D s T R ->
  exists out v, dktRun D r s T R S old = Done (out, v) /\
    forall i x, R !! i = Some x -> x ∈ S -> lastOfThread T R i x -> N.of_nat i ∈ out.
Proof. exact complete_last. Qed.
Print Assumptions C51_complete_partial.
Example C51_example : dktRun E11 r11 s11 2 [3; 5; 8; 9] [9; 7; 5; 3] [] = Done ([3; 1], [[true; true]; [false; false]]).
Proof. vm_compute. done. Qed.
Example C51_example_hyp : keysDistinct E11 s11 2 [3; 5; 8; 9] /\ lastOfThread 2 [3; 5; 8; 9] 1 5.
Proof.
  split; [apply keys_check; [lia|done|vm_compute; done]|]. exists 0%nat. split; [lia|]. split; [apply (bool_decide_unpack _); vm_compute; done|].
  exists 1%nat. done.
Qed.

(** With at least as many channels as items the output is complete. *)
Theorem C51_channels_partial : forall D, dktLaws D -> forall T r s R S, length S = length R -> (0 < T)%nat ->
  N.of_nat (length R) * N.of_nat T < 2 ^ 64 -> forall old, (length R <= T)%nat -> keysDistinct D s T R ->
  exists out v, dktRun D r s T R S old = Done (out, v) /\ forall i x, R !! i = Some x -> x ∈ S -> N.of_nat i ∈ out.
Proof. exact complete_short. Qed.
Print Assumptions C51_channels_partial.
Example C51_channels_example : keysDistinct E11 s11 3 [3; 5; 8] /\
  dktRun E11 r11 s11 3 [3; 5; 8] [8; 7; 3] [] = Done ([2; 0], [[true]; [false]; [false]]).
Proof. split; [apply keys_check; [lia|done|vm_compute; done]|vm_compute; done]. Qed.

(** The output in general: a common item is found exactly if its key equals that of the last item of its thread. *)
Theorem C51_exact_partial : forall D, dktLaws D -> forall T r s R S, length S = length R -> (0 < T)%nat ->
  N.of_nat (length R) * N.of_nat T < 2 ^ 64 -> keysDistinct D s T R -> roInjective D s R S ->
  exists out v, dktRun D r s T R S [] = Done (out, v) /\
    forall i, N.of_nat i ∈ out <->
      exists x z, R !! i = Some x /\ x ∈ S /\ lastOfThread T R i z /\ pmul D (ptOf D z) (sRs s) = pmul D (ptOf D x) (sRs s).
Proof. exact exact_out. Qed.
Print Assumptions C51_exact_partial.
Example C51_exact_example : keysDistinct E11 s11 1 [3; 5; 14] /\ roInjective E11 s11 [3; 5; 14] [3; 5; 14] /\
  dktRun E11 r11 s11 1 [3; 5; 14] [3; 5; 14] [] = Done ([0; 2], [[true; true; true]]).
Proof. split; [apply keys_check; [lia|done|vm_compute; done]|]. split; [apply ro_check; vm_compute; done|vm_compute; done]. Qed.

(** C52: the sender aborts when a proof of the receiver does not verify. False: the failure is only printed. *)
Theorem C52_reject_refuted : exists D s T S m1 m2 v m, dktLaws D /\ primeOrder D /\
  sendInputS D s T S m1 m2 = Done (Some (v, m)) /\ [false] ∈ v /\ concat (sTs m) <> [].
Proof.
  exists E11, s11, 1%nat, [3], (mkMsg1 E11 (f11 1) (f11 2) [[(f11 3, f11 4, f11 5)]]), (mkMsg2 E11 (f11 6) [[f11 7]]).
  eexists _, _. split; [apply D11_laws|]. split; [apply D11_prime|]. split; [vm_compute; reflexivity|]. split; [left|].
  vm_compute. done.
Qed.
Print Assumptions C52_reject_refuted.

(** The sender aborts only on a wrong number of points or responses ... *)
Theorem C52_sizes_partial : forall D s T S m1 m2, N.of_nat (length S) * N.of_nat T < 2 ^ 64 ->
  sized T (length S) (m1Items m1) && sized T (length S) (m2Phis m2) = false -> sendInputS D s T S m1 m2 = Thrown None.
Proof. exact sender_sizes. Qed.
Print Assumptions C52_sizes_partial.
Example C52_sizes_example : sized 1 1 (m2Phis (mkMsg2 E11 (f11 6) [[f11 7; f11 8]])) = false.
Proof. done. Qed.
(** ... and what it sends does not depend on the responses. *)
Theorem C52_ignored_partial : forall D s T S m1 m2 m2', (0 < T)%nat -> N.of_nat (length S) * N.of_nat T < 2 ^ 64 ->
  sized T (length S) (m1Items m1) = true -> sized T (length S) (m2Phis m2) = true -> sized T (length S) (m2Phis m2') = true ->
  exists v v' m, sendInputS D s T S m1 m2 = Done (Some (v, m)) /\ sendInputS D s T S m1 m2' = Done (Some (v', m)).
Proof. exact sender_ignores. Qed.
Print Assumptions C52_ignored_partial.
Example C52_ignored_example : sized 1 1 (m1Items (mkMsg1 E11 (f11 1) (f11 2) [[(f11 3, f11 4, f11 5)]])) = true /\
  sized 1 1 (m2Phis (mkMsg2 E11 (f11 6) [[f11 7]])) = true.
Proof. done. Qed.

(** C53: with an honest sender none of the receiver's checks fails. *)
Theorem C53_accepts : forall D, dktLaws D -> forall T r s R S, length S = length R -> (0 < T)%nat ->
  N.of_nat (length R) * N.of_nat T < 2 ^ 64 -> forall old, exists out v, dktRun D r s T R S old = Done (out, v).
Proof. exact no_abort. Qed.
Print Assumptions C53_accepts.
Example C53_example : dktLaws E11 /\
  (exists items m1 m, threadItems 1 [3] = Some items /\ recvFirst E11 r11 items = m1 /\ recvFinish E11 r11 1 [3] items m1 m [] = Thrown []).
Proof.
  split; [apply D11_laws|]. do 2 eexists. exists (mkMsgS E11 (f11 1) [[f11 2]] (f11 3) (f11 4) [[f11 5]] [[77]]).
  split; [done|]. split; [done|]. vm_compute. done.
Qed.

(** C89: the sender's check of an honest receiver's proof succeeds. False with two channels: [X] covers only the items of thread 0. *)
Theorem C89_honest_refuted : exists D r s T R S out v, dktLaws D /\ primeOrder D /\ gggS D = gggR D /\ (0 < T)%nat /\ length S = length R /\
  NoDup R /\ NoDup S /\ dktRun D r s T R S [] = Done (out, v) /\ ~ Forall (Forall (fun b => b = true)) v.
Proof.
  exists E11, r11, s11, 2%nat, [3; 5; 8; 9], [9; 7; 5; 3], [3; 1], [[true; true]; [false; false]].
  split; [apply D11_laws|]. split; [apply D11_prime|]. split; [done|]. split; [lia|]. split; [done|].
  split; [by apply (bool_decide_unpack _)|]. split; [by apply (bool_decide_unpack _)|]. split; [vm_compute; done|].
  intros H. apply Forall_cons in H as [_ H]. apply Forall_cons in H as [H _]. apply Forall_cons in H as [H _]. done.
Qed.
Print Assumptions C89_honest_refuted.
(** It holds with one channel, if both parties' [ggg] have the same value. Missing: more channels. *)
Theorem C89_honest_partial : forall D, dktLaws D -> forall r s R S old, length S = length R -> N.of_nat (length R) < 2 ^ 64 -> gggS D = gggR D ->
  exists out v, dktRun D r s 1 R S old = Done (out, v) /\ map length v = [length R] /\ Forall (Forall (fun b => b = true)) v.
Proof. exact verdict_one. Qed.
Print Assumptions C89_honest_partial.
Example C89_example : gggS E11 = gggR E11 /\ dktRun E11 r11 s11 1 [3; 5; 8] [9; 7; 5] [] = Done ([], [[true; true; true]]).
Proof. split; [done|]. vm_compute. done. Qed.
(** The value of [ggg] matters: it is not initialised. *)
Example C89_ggg : dktRun (D11 5 6) (mkRecvRnd (D11 5 6) (rRc r11) (rD r11) (rDs r11) (rRcs r11)) (mkSendRnd (D11 5 6) (sRs s11) (sR2 s11)) 1 [3; 5; 8] [9; 7; 5] [] = Done ([], [[false; false; false]]).
Proof. vm_compute. done. Qed.

(** C90: only common items are reported. *)
Theorem C90_sound : forall D, dktLaws D -> forall T r s R S, length S = length R -> (0 < T)%nat ->
  N.of_nat (length R) * N.of_nat T < 2 ^ 64 -> forall old, roInjective D s R S ->
  exists out v, dktRun D r s T R S old = Done (old ++ out, v) /\ forall p, p ∈ out -> exists i x, p = N.of_nat i /\ R !! i = Some x /\ x ∈ S.
Proof. exact sound_out. Qed.
Print Assumptions C90_sound.
Example C90_example : roInjective E11 s11 [3; 5; 8; 9] [9; 7; 5; 3] /\ dktRun E11 r11 s11 2 [3; 5; 8; 9] [9; 7; 5; 3] [4] = Done ([4; 3; 1], [[true; true]; [false; false]]).
Proof. split; [apply ro_check; vm_compute; done|vm_compute; done]. Qed.

(** C91: the receiver's checks bind the sender to one key. If the receiver finished and the same commitment can also be
    answered for another challenge, then [Z] and all [Mps] are multiples by one scalar, and the receiver's masks are those of this key. *)
Theorem C91_oneKey : forall D, dktLaws D -> primeOrder D -> forall r T R items m1 m old out c' phi',
  recvFinish D r T R items m1 m old = Done out -> sized T (length R) (m1Items m1) = true ->
  c' <> challenge D (sA m) (sAs m) -> accepts D (map (map tripleM) (m1Items m1)) (sAs m) (sMps m) (sA m) (sZ m) c' phi' ->
  exists w, oneKey D (map (map tripleM) (m1Items m1)) (sMps m) (sZ m) w /\
    forall t k it Mp back x, entryAt (m1Items m1) t k = Some it -> tripleM it = padd D back (pmul D (gg D) (rRcs r t k)) ->
      entryAt (sMps m) t k = Some Mp -> recvMask D r (sZ m) t k Mp x = maskOf D (pmul D back w) x.
Proof. exact finish_oneKey. Qed.
Print Assumptions C91_oneKey.
(** A transcript accepted for two challenges, with key 2. *)
Definition items91 : list (list N) := [[3; 5]].
Definition m91 : msgS E11 :=
  match sendInputS E11 s11 1 [3; 7] (recvFirst E11 r11 items91) (recvSecond E11 r11 (recvFirst E11 r11 items91)) with
  | Done (Some (_, m)) => m
  | _ => mkMsgS E11 (f11 0) [] (f11 0) (f11 0) [] []
  end.
Example C91_example : recvFinish E11 r11 1 [3; 5] items91 (recvFirst E11 r11 items91) m91 [] = Done [] /\
  sized 1 2 (m1Items (recvFirst E11 r11 items91)) = true /\ f11 1 <> challenge E11 (sA m91) (sAs m91) /\
  accepts E11 (map (map tripleM) (m1Items (recvFirst E11 r11 items91))) (sAs m91) (sMps m91) (sA m91) (sZ m91) (f11 1) (f11 (7 + 2)).
Proof.
  split; [vm_compute; done|]. split; [vm_compute; done|]. split; [apply (bool_decide_unpack _); vm_compute; done|].
  split; [apply v11_inj; vm_compute; done|]. intros [|t] [|[|k]] M a Mp; cbn; intros [= <-] [= <-] [= <-]; apply v11_inj; vm_compute; done.
Qed.
