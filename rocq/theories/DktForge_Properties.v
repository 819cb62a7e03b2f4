(** Property theorems about the challenges of DKT. *)
From Verif Require Import Base Ecdh_Model Dkt_Model Dkt_Spec Dkt_Proofs Dkt_Properties DktForge_Spec DktForge_Proofs.

(** C146: if the receiver's checks pass, the sender used one key. False: the challenge is the hash of the commitments only
    (DktMPsiSender.cpp:182-186, 233; DktMPsiReceiver.cpp:337, 346), so that [Z] and [Mps] can be chosen when it is known. The sender below
    commits to the exponent 3 for the item of thread 0 and 5 for that of thread 1. *)
Definition inv11 (e : F11) : F11 := f11 (v11 e ^ 9).
Definition cheat (R : list N) (phi : F11) : msg1 E11 * msgS E11 :=
  let m1 := recvFirst E11 r11 (map (fun x => [x]) R) in
  let Ms := map (map tripleM) (m1Items m1) in
  let A := pmul E11 (gg E11) (f11 3) in
  let As := imap (fun t l => map (fun M => pmul E11 M (f11 (3 + 2 * N.of_nat t))) l) Ms in
  let v := inv11 (challenge E11 A As) in
  let key := smul E11 (ssub E11 phi (f11 3)) v in
  (m1, lateMsg E11 Ms A As v phi (map (fun x => [maskOf E11 (pmul E11 (ptOf E11 x) key) x]) [5; 8])).
Theorem C146_oneKey_refuted : exists D r T R items m1 m old out, dktLaws D /\ primeOrder D /\ recvFirst D r items = m1 /\
  threadItems T R = Some items /\ sized T (length R) (m1Items m1) = true /\ challenge D (sA m) (sAs m) <> szero D /\
  recvFinish D r T R items m1 m old = Done out /\ forall w, ~ oneKey D (map (map tripleM) (m1Items m1)) (sMps m) (sZ m) w.
Proof.
  exists E11, r11, 2%nat, [5; 8], [[5]; [8]], (cheat [5; 8] (f11 7)).1, (cheat [5; 8] (f11 7)).2, [], [0].
  split; [apply D11_laws|]. split; [apply D11_prime|]. split; [done|]. split; [done|]. split; [done|].
  split; [apply (bool_decide_unpack _); vm_compute; done|]. split; [vm_compute; done|].
  intros w [HZ HM]. specialize (HM 1%nat 0%nat _ _ eq_refl eq_refl). apply (f_equal v11) in HZ, HM. revert HZ HM.
  assert (v11 (sZ (cheat [5; 8] (f11 7)).2) = 10) as -> by (vm_compute; done). cbn [pmul E11 D11 mul11 f11 v11 proj1_sig].
  pose proof (v11_all w) as Hw. unfold v11 in Hw. destruct w as [w ?]. cbn [proj1_sig] in *. vm_compute in Hw. 
  repeat (destruct Hw as [<-|Hw]; [vm_compute; congruence|]). done.
Qed.
Print Assumptions C146_oneKey_refuted.
(** The same sender, with masks of 5 and 8: the receiver reports 5 if its set is 5, 8 and reports 8 if its set is 8, 5. No set of the sender
    explains both outputs. *)
Example C146_byPosition : let out R := recvFinish E11 r11 2 R (map (fun x => [x]) R) (cheat R (f11 7)).1 (cheat R (f11 7)).2 [] in
  out [5; 8] = Done [0] /\ out [8; 5] = Done [0].
Proof. vm_compute. done. Qed.
(** In general: whatever the commitments and the response, if the challenge can be inverted, points computed afterwards are accepted ... *)
Theorem C146_late_refuted : forall D, dktLaws D -> forall r T R items m1 A As v phi Ts old, undoes D (challenge D A As) v ->
  sized T (length R) (m1Items m1) = true -> sized T (length R) As = true -> sized T (length R) Ts = true ->
  exists out, recvFinish D r T R items m1 (lateMsg D (map (map tripleM) (m1Items m1)) A As v phi Ts) old = Done out.
Proof. exact sender_late. Qed.
Print Assumptions C146_late_refuted.
Example C146_late_example : let m := (cheat [5; 8] (f11 7)).2 in undoes E11 (challenge E11 (sA m) (sAs m)) (inv11 (challenge E11 (sA m) (sAs m))).
Proof.
  intros m a. assert (challenge E11 (sA m) (sAs m) = f11 10) as -> by (apply v11_inj; vm_compute; done).
  apply v11_inj, N.eqb_eq. refine (by11 (fun a _ _ => (((a * 10) mod 11) * 10) mod 11 =? a) _ a a a). vm_compute. done.
Qed.
(** ... and nothing else is: the commitments, the challenge and the response determine [Z] and [Mps]. *)
Theorem C146_determined_partial : forall D, dktLaws D -> forall r T R items m1 m old out v, recvFinish D r T R items m1 m old = Done out ->
  sized T (length R) (m1Items m1) = true -> undoes D (challenge D (sA m) (sAs m)) v ->
  m = lateMsg D (map (map tripleM) (m1Items m1)) (sA m) (sAs m) v (sPhi m) (sTs m).
Proof. exact late_all. Qed.
Print Assumptions C146_determined_partial.
Example C146_determined_example :
  recvFinish E11 r11 1 [3; 5] items91 (recvFirst E11 r11 items91) m91 [] = Done [] /\ challenge E11 (sA m91) (sAs m91) <> szero E11.
Proof. split; [vm_compute; done|]. apply (bool_decide_unpack _). vm_compute. done. Qed.
(** What holds: if the commitments have one exponent and the challenge is not zero, so have [Z] and [Mps].
    Missing: that the commitments have. *)
Theorem C146_oneKey_partial : forall D, dktLaws D -> forall r T R items m1 m old out k, primeOrder D ->
  recvFinish D r T R items m1 m old = Done out -> sized T (length R) (m1Items m1) = true ->
  challenge D (sA m) (sAs m) <> szero D -> oneKey D (map (map tripleM) (m1Items m1)) (sAs m) (sA m) k ->
  exists w, oneKey D (map (map tripleM) (m1Items m1)) (sMps m) (sZ m) w.
Proof. exact committed. Qed.
Print Assumptions C146_oneKey_partial.
Example C146_oneKey_example : oneKey E11 (map (map tripleM) (m1Items (recvFirst E11 r11 items91))) (sAs m91) (sA m91) (f11 7).
Proof.
  split; [apply v11_inj; vm_compute; done|]. intros [|t] [|[|k]] M a; cbn; intros [= <-] [= <-]; apply v11_inj; vm_compute; done.
Qed.

(** C147: the sender's check of the receiver's proof succeeds only for points chosen before the challenge. False: the challenge is the hash
    of [sigmaA] and the [sigmaBs] (DktMPsiReceiver.cpp:170, 227; DktMPsiSender.cpp:139, 220). Whatever [X], the [M], the commitments and
    the responses are, with [N] computed afterwards every proof verifies. *)
Theorem C147_late_refuted : forall D, dktLaws D -> forall s T S X A v phi its, (0 < T)%nat -> N.of_nat (length S) * N.of_nat T < 2 ^ 64 ->
  undoes D (challenge D A (map (map (fun i => i.1.2)) its)) v -> sized T (length S) its = true ->
  exists vs m, sendInputS D s T S (lateFirst D X A v phi its) (lateSecond D phi its) = Done (Some (vs, m)) /\
    map length vs = map length its /\ Forall (Forall (fun b => b = true)) vs.
Proof. exact receiver_late. Qed.
Print Assumptions C147_late_refuted.
(** Two threads with points 1, 9 and 4, 4 of the receiver's choice: the sender's four checks succeed, where an honest receiver's two
    last ones fail (C89). *)
Definition its147 : list (list (F11 * F11 * F11)) := [[(f11 1, f11 2, f11 3); (f11 9, f11 5, f11 1)]; [(f11 4, f11 1, f11 6); (f11 4, f11 8, f11 2)]].
Definition e147 : F11 := challenge E11 (f11 6) (map (map (fun i : F11 * F11 * F11 => i.1.2)) its147).
Example C147_example : v11 e147 <> 0 /\
  match sendInputS E11 s11 2 [3; 5; 8; 9] (lateFirst E11 (f11 5) (f11 6) (inv11 e147) (f11 2) its147) (lateSecond E11 (f11 2) its147) with
  | Done (Some (vs, _)) => vs = [[true; true]; [true; true]]
  | _ => False
  end.
Proof. vm_compute. done. Qed.
(** What holds is C148: the commitments are fixed by the challenge. *)

(** C148: equal challenges mean equal commitments of all threads, if the hashed strings do not collide. *)
Theorem C148_bound : forall D f f' l l', l <> [] -> l' <> [] -> noCollision D f f' l l' -> challenge D f l = challenge D f' l' -> f = f' /\ l = l'.
Proof. exact challenge_fixes. Qed.
Print Assumptions C148_bound.
Example C148_example : noCollision E11 (f11 2) (f11 2) [[f11 3]; [f11 4; f11 5]] [[f11 3]; [f11 4; f11 6]] /\
  challenge E11 (f11 2) [[f11 3]; [f11 4; f11 5]] <> challenge E11 (f11 2) [[f11 3]; [f11 4; f11 6]].
Proof.
  split; [|apply (bool_decide_unpack _); vm_compute; done]. split; [|split; intros H; exfalso; revert H; vm_compute; discriminate].
  intros u u' Hu Hu' H. apply elem_of_list_singleton in Hu as ->. apply elem_of_list_singleton in Hu' as ->. exfalso. revert H. vm_compute. discriminate.
Qed.
