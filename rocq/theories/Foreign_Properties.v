(** Property theorems about parties that receive freely chosen messages (C202, C203). *)
From Verif Require Import Base Partition_Model Foreign_Model Foreign_Spec Foreign_Proofs Foreign_Proofs2.
From Verif Require Ecdh_Model CuckooIndex_Model Kkrt_Model Kkrt_Properties Dcw_Model Dcw_Properties Rr16_Model Rr17_Model Rr17a_Model Rr17a_Spec Rr17a_Properties
  Dkt_Model Dkt_Properties Drrn_Model.

(** * C202 *)

(** ** What holds *)

(** KKRT. [msgs]: any messages; [R]: the receiver's items. *)
Theorem C202_kkrt_partial F enc seed ms nS nR o R msgs o' rest :
  Kkrt_Model.receiverInput F enc seed ms nS nR o R msgs = Done (o', rest) ->
  earned (length R) (kkrtOwn F ms R) (concat msgs) (Kkrt_Model.krIntersection o) (Kkrt_Model.krIntersection o').
Proof. exact (kkrt_earned F ms R enc seed nS nR o msgs o' rest). Qed.
Print Assumptions C202_kkrt_partial.
Definition kObject : Kkrt_Model.kReceiver :=
  match Kkrt_Model.recvInit Kkrt_Properties.exP (Kkrt_Model.mkKReceiver (CuckooIndex_Model.constructed 20) [7]) with Done o => o | _ => Kkrt_Model.mkKReceiver (CuckooIndex_Model.constructed 20) [] end.
Example C202_kkrt_example : exists o', Kkrt_Model.receiverInput Kkrt_Properties.exF Kkrt_Properties.exEnc 5 10 2 2 kObject [65; 66] [[1; 2; 3; 10995116277827; 4; 5]; [9]] = Done (o', [[9]]) /\
  Kkrt_Model.krIntersection o' = [7; 1].
Proof. eexists. split; vm_compute; reflexivity. Qed.

(** DCW. [theirs]: any blocks. *)
Theorem C202_dcw_partial aes prng o R theirs out :
  length (Dcw_Model.drMsgs o) = Dcw_Model.bfBits (Dcw_Model.drN o) -> (0 < Dcw_Model.bfBits (Dcw_Model.drN o))%nat -> dcwReceive aes prng o R theirs = Done out ->
  earned (length R) (dcwOwn (Dcw_Model.positions aes prng (Dcw_Model.drSeed o) (Dcw_Model.bfBits (Dcw_Model.drN o))) (Dcw_Model.drMsgs o) R) theirs (Dcw_Model.drIntersection o) out.
Proof. exact (dcw_earned aes prng o R theirs out). Qed.
Print Assumptions C202_dcw_partial.
Definition dObject : Dcw_Model.dcwReceiver := Dcw_Model.mkDcwReceiver 2 5 (map (fun i => N.of_nat i * N.of_nat i + 3 * N.of_nat i + 1) (seq 0 384)) (replicate 384 true) [8].
Definition dAes (k x : N) : N := k + 5 * x.
(** The mask of the item 31. *)
Definition dMask : N := 228224.
Example C202_dcw_example : length (Dcw_Model.drMsgs dObject) = Dcw_Model.bfBits 2 /\
  dcwReceive dAes Dcw_Properties.exPrng dObject [10; 31] [dMask; 12345] = Done [8; 1].
Proof. split; vm_compute; reflexivity. Qed.

(** RR16. [theirs]: any blocks per thread; [perm]: the permutation the receiver sent. *)
Theorem C202_rr16_partial aes ro seed m nh T n total zeros ones msgs R mergeOrd theirs outOrd old out perm mp : (0 < T)%nat -> N.of_nat n * N.of_nat T < 2 ^ 64 ->
  Rr16_Model.recvFirst aes ro seed m nh T n total zeros ones msgs R mergeOrd = Done (perm, mp) ->
  rr16Receive aes ro seed m nh T n total zeros ones msgs R mergeOrd theirs outOrd old = Done out ->
  earned (length R) (lowOwn (fun x => Rr16_Model.recvMask msgs perm (Rr16_Model.filterPos aes ro seed (N.of_nat m) nh x) 0) R)
    (concat (map (fun t => default [] (theirs !! t)) outOrd)) old out.
Proof. exact (rr16_earned aes ro seed m nh T n total zeros ones msgs R mergeOrd theirs outOrd old out perm mp). Qed.
Print Assumptions C202_rr16_partial.
(** A filter of 11 bits, 2 hash functions, 24 OTs, one channel. *)
Definition r16Msgs : list N := map (fun i => N.of_nat i * N.of_nat i * 5 + N.of_nat i) (seq 0 24).
Definition r16 (theirs : list (list N)) : outcome (list N) :=
  rr16Receive (fun k c => k * 5 + c * 3) (fun s x => s + 7 * x) 5 11 2 1 2 24 (map N.of_nat (seq 0 12)) (map N.of_nat (seq 12 12)) r16Msgs [10; 30] [0]%nat theirs [0]%nat [9].
(** The mask of the item 30, and another block with the same low half. *)
Definition r16Mask : N := 318.
Example C202_rr16_example : r16 [[1; 2; r16Mask; 4]] = Done [9; 1].
Proof. vm_compute. reflexivity. Qed.

(** RR17a. [chan]: any masks. *)
Theorem C202_rr17a_partial P rd R chan old : Rr17a_Spec.paramsOk P R -> Rr17a_Model.rOrdR rd ≡ₚ seq 0 (Rr17a_Model.pN P) ->
  (forall t, t ∈ Rr17a_Model.rOut rd -> (t < Rr17a_Model.pT P)%nat) ->
  exists out, rr17aReceive P rd R chan old = Done out /\
    earned (length R) (rr17aOwn (Rr17a_Model.pEncR P) (Rr17a_Model.pEncS P) (Rr17a_Model.nco P) (Rr17a_Model.itemBin P)
        (Rr17_Model.places (Rr17a_Model.pCap P) (Rr17a_Model.pNb P) (Rr17a_Model.pT P)) (Rr17a_Model.pCap P) (Rr17a_Model.pMask P) R)
      (concat (map chan (Rr17a_Model.rOut rd))) old out.
Proof. exact (rr17a_earned P rd R chan old). Qed.
Print Assumptions C202_rr17a_partial.
Definition aP : Rr17a_Model.params := Rr17a_Properties.exP true 4 4 3 1.
Definition aRd : Rr17a_Model.rand := Rr17a_Properties.exRd 4 4 3 1.
(** A mask of the item 16, which is at position 2. *)
Definition aMask : N := 51546019938172930.
Example C202_rr17a_example : Rr17a_Spec.paramsOk aP [4; 9; 16; 25] /\ rr17aReceive aP aRd [4; 9; 16; 25] (fun _ => [1; aMask; 3]) [5] = Done [5; 2].
Proof. split; [apply Rr17a_Properties.paramsOkb_ok; vm_compute; reflexivity|vm_compute; reflexivity]. Qed.

(** DKT. [m]: any messages of the sender. *)
Theorem C202_dkt_partial D r T R items m1 m old out : (0 < T)%nat -> N.of_nat (length R) * N.of_nat T < 2 ^ 64 -> Dkt_Model.threadItems T R = Some items ->
  Dkt_Model.recvFinish D r T R items m1 m old = Done out ->
  earned (length R) (dktOwn (Dkt_Model.sMps m) (Dkt_Model.recvMask D r (Dkt_Model.sZ m)) R) (concat (Dkt_Model.sTs m)) old out.
Proof. exact (dkt_earned D r T R items m1 m old out). Qed.
Print Assumptions C202_dkt_partial.

(** ECDH. [xa]: any points, [masks]: any masks. The positions come in increasing order, so none comes twice. *)
Theorem C202_ecdh_partial {P} (smul : P -> N -> P) enc dec roPoint T b n xa masks sched old out : (0 < T)%nat -> N.of_nat n * N.of_nat T < 2 ^ 64 ->
  ecdhReceive smul enc dec roPoint T b n xa masks sched old = Done out ->
  exists new, out = old ++ new /\ (forall i j x y, new !! i = Some x -> new !! j = Some y -> (i < j)%nat -> x < y) /\
    forall p, p ∈ new -> p < N.of_nat n /\
      ecdhOwn (fun y => roPoint (enc (smul (dec y) b))) (Ecdh_Model.maskBytes n) (concat xa)
        (concat (map (fun t => zip (Ecdh_Model.idxRange n T t) (default [] (masks !! t))) (seq 0 T))) (N.to_nat p).
Proof. exact (ecdh_earned smul enc dec roPoint T b n xa masks sched old out). Qed.
Print Assumptions C202_ecdh_partial.
Definition eSmul (x k : N) : N := (x * k) mod 101.
Definition eRo (x : N) : N := (x * x + 7) * 0x9e3779b97f4a7c15f39cc0605cedc835 mod 2 ^ 128.
Example C202_ecdh_example : ecdhReceive eSmul id id eRo 2 13 3 [[5]; [6; 8]] [[eRo (eSmul 8 13) mod 2 ^ 48]; [99; eRo (eSmul 5 13) mod 2 ^ 48]] [1; 0; 1]%nat [4] = Done [4; 0; 2].
Proof. vm_compute. reflexivity. Qed.

(** ** What does not hold *)

(** KKRT, DCW, RR16, RR17a, DKT: a sender that repeats a mask makes the receiver report a position twice. *)
Theorem C202_kkrt_repeated_refuted : exists F enc seed ms o msgs o' rest,
  Kkrt_Model.receiverInput F enc seed ms 2 2 o [65; 66] msgs = Done (o', rest) /\ repeated (Kkrt_Model.krIntersection o) (Kkrt_Model.krIntersection o').
Proof.
  exists Kkrt_Properties.exF, Kkrt_Properties.exEnc, 5, 10, kObject, [[2199023255618; 0; 0; 2199023255618; 0; 0]]. eexists _, _. split; [vm_compute; reflexivity|].
  exists [0; 0]. split; [vm_compute; reflexivity|]. intros H. apply NoDup_cons in H as [H _]. apply H. left.
Qed.
Print Assumptions C202_kkrt_repeated_refuted.
Theorem C202_dcw_repeated_refuted : exists aes prng o R theirs out,
  length (Dcw_Model.drMsgs o) = Dcw_Model.bfBits (Dcw_Model.drN o) /\ dcwReceive aes prng o R theirs = Done out /\ repeated (Dcw_Model.drIntersection o) out.
Proof.
  exists dAes, Dcw_Properties.exPrng, dObject, [10; 31], [dMask; dMask]. eexists. split; [vm_compute; reflexivity|]. split; [vm_compute; reflexivity|].
  exists [1; 1]. split; [vm_compute; reflexivity|]. intros H. apply NoDup_cons in H as [H _]. apply H. left.
Qed.
Print Assumptions C202_dcw_repeated_refuted.
Theorem C202_rr16_repeated_refuted : exists theirs out, r16 theirs = Done out /\ repeated [9] out.
Proof.
  exists [[r16Mask; 2 ^ 100 + r16Mask]]. eexists. split; [vm_compute; reflexivity|]. exists [1; 1]. split; [done|]. intros H. apply NoDup_cons in H as [H _]. apply H. left.
Qed.
Print Assumptions C202_rr16_repeated_refuted.
Theorem C202_rr17a_repeated_refuted : exists P rd R chan out, Rr17a_Spec.paramsOk P R /\ rr17aReceive P rd R chan [] = Done out /\ repeated [] out.
Proof.
  exists aP, aRd, [4; 9; 16; 25], (fun _ => [aMask; aMask]). eexists. split; [apply C202_rr17a_example|]. split; [vm_compute; reflexivity|].
  exists [2; 2]. split; [done|]. intros H. apply NoDup_cons in H as [H _]. apply H. left.
Qed.
Print Assumptions C202_rr17a_repeated_refuted.
(** A DKT sender with the items 5 and 5 (its other messages pass all checks). *)
Definition dktItems : list (list N) := [[3; 5]].
Definition dktMsg (S : list N) : Dkt_Model.msgS Dkt_Properties.E11 :=
  let m1 := Dkt_Model.recvFirst Dkt_Properties.E11 Dkt_Properties.r11 dktItems in
  match Dkt_Model.sendInputS Dkt_Properties.E11 Dkt_Properties.s11 1 S m1 (Dkt_Model.recvSecond Dkt_Properties.E11 Dkt_Properties.r11 m1) with
  | Done (Some (_, m)) => m
  | _ => Dkt_Properties.m91
  end.
Theorem C202_dkt_repeated_refuted : exists D r R items m1 m out,
  Dkt_Model.threadItems 1 R = Some items /\ Dkt_Model.recvFinish D r 1 R items m1 m [] = Done out /\ repeated [] out.
Proof.
  exists Dkt_Properties.E11, Dkt_Properties.r11, [3; 5], dktItems, (Dkt_Model.recvFirst Dkt_Properties.E11 Dkt_Properties.r11 dktItems), (dktMsg [5; 5]). eexists.
  split; [vm_compute; reflexivity|]. split; [vm_compute; reflexivity|]. exists [1; 1]. split; [done|]. intros H. apply NoDup_cons in H as [H _]. apply H. left.
Qed.
Print Assumptions C202_dkt_repeated_refuted.
Example C202_dkt_example : Dkt_Model.recvFinish Dkt_Properties.E11 Dkt_Properties.r11 1 [3; 5] dktItems (Dkt_Model.recvFirst Dkt_Properties.E11 Dkt_Properties.r11 dktItems) (dktMsg [5; 7]) [4] = Done [4; 1].
Proof. vm_compute. reflexivity. Qed.

(** ECDH: if a byte string [e] decodes to a point that no scalar changes (the neutral element), a sender without any item, who knows neither the
    receiver's scalar [b] nor its items, makes the receiver report all its items. *)
Theorem C202_ecdh_forged_refuted {P} (smul : P -> N -> P) enc dec roPoint e b n : (forall k, smul (dec e) k = dec e) -> (0 < n)%nat -> N.of_nat n < 2 ^ 64 ->
  ecdhReceive smul enc dec roPoint 1 b n [replicate n e] [replicate n (roPoint (enc (dec e)) mod 2 ^ (8 * Ecdh_Model.maskBytes n))] (replicate n 0%nat) [] =
  Done (map N.of_nat (seq 0 n)).
Proof.
  intros He Hn Hw. apply ecdh_forged; [done|done|done|]. unfold Ecdh_Model.maskBytes. apply N.div_le_lower_bound; lia.
Qed.
Print Assumptions C202_ecdh_forged_refuted.
Example C202_ecdh_forged_example : (forall k, eSmul 0 k = 0) /\ ecdhReceive eSmul id id eRo 1 13 3 [[0; 0; 0]] [replicate 3 (eRo 0 mod 2 ^ 48)] [0; 0; 0]%nat [] = Done [0; 1; 2].
Proof. split; [done|vm_compute; reflexivity]. Qed.

(** * C203 *)

(** The values [pi0] come from the client. Server 0 stays inside its table if and only if they do. *)
Theorem C203_server_reads_partial shares msg1 rs pi0 piS0 : length msg1 = length shares -> length pi0 = length shares -> length piS0 = length shares ->
  (is_Some (Drrn_Model.server0Input shares msg1 rs pi0 piS0) <-> insideTable (length rs) pi0).
Proof. exact (server0_reads shares msg1 rs pi0 piS0). Qed.
Print Assumptions C203_server_reads_partial.
Example C203_example : insideTable 3 [2; 0; 1]%nat /\ Drrn_Model.server0Input [5; 6; 7] [50; 60; 70] [11; 12; 13] [2; 0; 1]%nat [1; 2; 3] = Some [59; 51; 78].
Proof. split; [|vm_compute; reflexivity]. intros i Hi. repeat (apply elem_of_cons in Hi as [->|Hi]; [lia|]). by apply elem_of_nil in Hi. Qed.
(** Nothing checks the values: a client that sends one that is too large makes the server read outside. *)
Theorem C203_server_reads_refuted : exists shares msg1 rs pi0 piS0, length msg1 = length shares /\ length rs = length shares /\ length pi0 = length shares /\ length piS0 = length shares /\
  Drrn_Model.server0Input shares msg1 rs pi0 piS0 = None.
Proof. exists [5; 6; 7], [50; 60; 70], [11; 12; 13], [2; 0; 3]%nat, [1; 2; 3]. repeat (split; [done|]). vm_compute. reflexivity. Qed.
Print Assumptions C203_server_reads_refuted.
