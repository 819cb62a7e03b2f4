(** Property theorems: receiver objects that are used for several runs (C182, C183). *)
From Verif Require Import Base Dcw_Spec Rr17_Spec Reuse_Model Reuse_Spec Reuse_Proofs.
From Verif Require Rr17a_Model Rr17a_Spec Rr17a_Properties Rr17b_Model Rr17b_Spec Rr17b_Properties Grr18_Model Grr18_Spec Grr18_Properties Rr16_Properties Ecdh_Properties Dkt_Properties.
From Verif Require Import CuckooIndex_Model Bgi_Model Bgi_Spec Bgi_Properties Drrn_Model Drrn_Spec Drrn_Proofs DrrnTop_Proofs Drrn_Properties.

(** * C182 *)

(** RR17a: two runs without common items left, after one with two common items. The second result still holds the first. *)
Section rr17a.
Import Rr17a_Model Rr17a_Spec Rr17a_Properties.
Theorem C182_rr17a_refuted : exists P rd R1 S1 R2 S2 out, paramsOk P R1 /\ paramsOk P S1 /\ paramsOk P R2 /\ paramsOk P S2 /\ randOk P rd /\
  freshOuts [useA P rd R1 S1; useA P rd R2 S2] [[1; 3]; []] /\ (forall x, x ∈ R2 -> x ∉ S2) /\
  history initKeeps [useA P rd R1 S1; useA P rd R2 S2] [] = Done out /\ out <> [].
Proof.
  exists (exP true 4 4 3 1), (exRd 4 4 3 1), exSetR, exSetS, exSetR, [1; 2; 3; 5], [1; 3].
  split; [by apply paramsOkb_ok; vm_compute|]. split; [by apply paramsOkb_ok; vm_compute|]. split; [by apply paramsOkb_ok; vm_compute|].
  split; [by apply paramsOkb_ok; vm_compute|]. split; [apply exRd_ok|].
  split; [repeat constructor; by vm_compute|]. split; [|split; [by vm_compute|done]].
  apply Forall_forall. unfold exSetR. repeat constructor; by apply (bool_decide_unpack _); vm_compute.
Qed.
Print Assumptions C182_rr17a_refuted.
End rr17a.

Section rr17b.
Import Rr17b_Model Rr17b_Spec Rr17b_Properties.
Theorem C182_rr17b_refuted : exists ss P rd R1 S1 R2 S2 out, paramsOk P R1 /\ paramsOk P S1 /\ paramsOk P R2 /\ paramsOk P S2 /\ randOk P rd /\
  freshOuts [useB ss P rd R1 S1; useB ss P rd R2 S2] [[3; 1]; []] /\ (forall x, x ∈ R2 -> x ∉ S2) /\
  history initKeeps [useB ss P rd R1 S1; useB ss P rd R2 S2] [] = Done out /\ out <> [].
Proof.
  exists 3%nat, (exP true 4 4 3 1), (exRd 4 4 3 1), exSetR, exSetS, exSetR, [1; 2; 3; 5], [3; 1].
  split; [by apply exP_ok; vm_compute|]. split; [by apply exP_ok; vm_compute|]. split; [by apply exP_ok; vm_compute|].
  split; [by apply exP_ok; vm_compute|]. split; [by apply exRd_ok; vm_compute|].
  split; [repeat constructor; by vm_compute|]. split; [|split; [by vm_compute|done]].
  apply Forall_forall. unfold exSetR. repeat constructor; by apply (bool_decide_unpack _); vm_compute.
Qed.
Print Assumptions C182_rr17b_refuted.
End rr17b.

Section rr16.
Import Rr16_Properties.
(** The three items of the receiver, then three others of the sender. *)
Definition use16ex (S : list N) : list N -> outcome (list N) := use16 exAes exRo 5 40 3 1 3 60 exZeros exOnes exRmsgs exSmsgs exSampled exR S [0%nat] [0%nat].
Theorem C182_rr16_refuted : exists S1 S2 out1 out, freshOuts [use16ex S1; use16ex S2] [out1; []] /\ (forall x, x ∈ exR -> x ∉ S2) /\
  history initKeeps [use16ex S1; use16ex S2] [] = Done out /\ out <> [].
Proof.
  exists exS, [31; 77; 11]. eexists _, _. split; [constructor; [vm_compute; reflexivity|]; constructor; [vm_compute; reflexivity|constructor]|].
  split; [|split; [vm_compute; reflexivity|done]].
  apply Forall_forall. unfold exR. repeat constructor; by apply (bool_decide_unpack _); vm_compute.
Qed.
Print Assumptions C182_rr16_refuted.
End rr16.

Section grr18.
Import Grr18_Model Grr18_Spec Rr17a_Model Rr17a_Spec Rr17a_Properties Grr18_Properties.
Definition useGex (S : list N) (lS : list nat) : list N -> outcome (list N) :=
  useG (exP true 4 4 3 2) (exGrr 4 2 exLR exAnn 2 (fun k => N.of_nat k + 5)) exOwn lS exSetR S.
Theorem C182_grr18_refuted : exists S1 S2 out1 out, paramsOk (exP true 4 4 3 2) exSetR /\ paramsOk (exP true 4 4 3 2) S1 /\ paramsOk (exP true 4 4 3 2) S2 /\
  freshOuts [useGex S1 exAnn; useGex S2 exAnn] [out1; []] /\ (forall x, x ∈ exSetR -> x ∉ S2) /\
  history initKeeps [useGex S1 exAnn; useGex S2 exAnn] [] = Done out /\ out <> [].
Proof.
  exists exSetS, [1; 2; 3; 5]. eexists _, _. split; [by apply paramsOkb_ok; vm_compute|]. split; [by apply paramsOkb_ok; vm_compute|].
  split; [by apply paramsOkb_ok; vm_compute|].
  split; [constructor; [vm_compute; reflexivity|]; constructor; [vm_compute; reflexivity|constructor]|].
  split; [|split; [vm_compute; reflexivity|done]].
  apply Forall_forall. unfold exSetR. repeat constructor; by apply (bool_decide_unpack _); vm_compute.
Qed.
Print Assumptions C182_grr18_refuted.
End grr18.

(** What the object of these four protocols holds: the results of all runs, in order. [runs] can mix parameters, sets and random choices. *)
Theorem C182_keeps_partial runs outs old :
  (forall run, run ∈ runs ->
    (exists P rd R S, run = useA P rd R S) \/ (exists ss P rd R S, run = useB ss P rd R S) \/ (exists P rd ownR lS R S, run = useG P rd ownR lS R S) \/
    (exists aes ro seed m nh T n total zeros ones rmsgs smsgs sampled R S mergeOrd outOrd,
       run = use16 aes ro seed m nh T n total zeros ones rmsgs smsgs sampled R S mergeOrd outOrd)) ->
  freshOuts runs outs -> history initKeeps runs old = Done (old ++ concat outs).
Proof.
  intros A F. apply history_appends; [|exact F]. apply Forall_forall. intros run Hr.
  destruct (A run Hr) as [(P & rd & R & S & ->)|[(ss & P & rd & R & S & ->)|[(P & rd & o & l & R & S & ->)|
    (aes & ro & seed & m & nh & T & n & total & zeros & ones & rmsgs & smsgs & sampled & R & S & mergeOrd & outOrd & ->)]]].
  - apply useA_appends.
  - apply useB_appends.
  - apply useG_appends.
  - apply use16_appends.
Qed.
Print Assumptions C182_keeps_partial.
Example C182_keeps_example : exists outs, freshOuts [use16ex Rr16_Properties.exS; use16ex [20; 77; 10]] outs /\
  history initKeeps [use16ex Rr16_Properties.exS; use16ex [20; 77; 10]] [7] = Done (7 :: concat outs) /\ length (concat outs) = 4%nat.
Proof.
  eexists [_; _]. split; [constructor; [vm_compute; reflexivity|]; constructor; [vm_compute; reflexivity|constructor]|].
  split; vm_compute; reflexivity.
Qed.

(** ECDH and DKT: [init] clears the output, so the object holds the result of the last run, whatever came before. *)
Theorem C182_ecdh runs old mid {P : Type} (smul : P -> N -> P) pt enc dec roItem roPoint hashSize T a b R S sched l :
  (0 < T)%nat -> (0 < length R)%nat -> length S = length R -> N.of_nat (length R) * N.of_nat T < 2 ^ 64 -> N.of_nat (length R) < 2 ^ 44 ->
  (forall p, dec (enc p) = p) -> (forall p, smul (smul p b) a = smul (smul p a) b) ->
  (forall z, z ∈ R -> roItem hashSize z mod 2 ^ 128 = roItem 16%nat z) ->
  (forall x y, x ∈ R ++ S -> y ∈ R ++ S ->
     Ecdh_Spec.dhBlock smul pt enc roPoint (roItem 16%nat x) a b mod 2 ^ 32 = Ecdh_Spec.dhBlock smul pt enc roPoint (roItem 16%nat y) a b mod 2 ^ 32 -> x = y) ->
  history initClears runs old = Done mid ->
  history initClears (runs ++ [useE smul pt enc dec roItem roPoint hashSize T a b R S sched]) old = Done l -> l = Ecdh_Spec.commonIn R S.
Proof.
  intros H1 H2 H3 H4 H5 H6 H7 H8 H9 E. rewrite (history_last _ _ _ _ _ E).
  exact (Ecdh_Proofs.ecdh_C33_exact smul pt enc dec roItem roPoint hashSize T a b R S sched [] l H1 H2 H3 H4 H5 H6 H7 H8 H9).
Qed.
Print Assumptions C182_ecdh.
Theorem C182_dkt runs old mid D r s T R S : Dkt_Spec.dktLaws D -> length S = length R -> (0 < T)%nat ->
  N.of_nat (length R) * N.of_nat T < 2 ^ 64 -> Dkt_Spec.keysDistinct D s T R -> Dkt_Spec.roInjective D s R S ->
  history initClears runs old = Done mid ->
  exists out, history initClears (runs ++ [useD D r s T R S]) old = Done out /\
    forall i, N.of_nat i ∈ out -> exists x, R !! i = Some x /\ x ∈ S.
Proof.
  intros HL HS HT HW HK HR E. destruct (Dkt_Proofs.exact_out D HL T r s R S HS HT HW HK HR) as (out & v & E2 & G).
  exists out. rewrite (history_last _ _ _ _ _ E). split.
  - unfold useD, initClears. by rewrite E2.
  - intros i Hi. apply G in Hi as (x & z & Hx & Hs & _). by exists x.
Qed.
Print Assumptions C182_dkt.
(** Two runs with one object: two channels and three, different sets. *)
Example C182_clears_example : 
  let use := useE Ecdh_Properties.exSmul Ecdh_Properties.exPt Ecdh_Properties.exId Ecdh_Properties.exId Ecdh_Properties.exRoItem Ecdh_Properties.exRoPoint 20 in
  history initClears [use 2%nat 7 11 Ecdh_Properties.exR Ecdh_Properties.exS [1; 0; 1; 1; 0]%nat] [] = Done [0; 2; 4] /\
  history initClears [use 2%nat 7 11 Ecdh_Properties.exR Ecdh_Properties.exS [1; 0; 1; 1; 0]%nat; use 1%nat 9 13 [1; 2; 3] [8; 3; 9] [0; 0; 0]%nat] [] = Done [2] /\
  history initClears [useD Dkt_Properties.E11 Dkt_Properties.r11 Dkt_Properties.s11 2 [3; 5; 8; 9] [9; 7; 5; 3];
    useD Dkt_Properties.E11 Dkt_Properties.r11 Dkt_Properties.s11 3 [3; 5; 8] [8; 7; 3]] [] = Done [2; 0].
Proof. split; [|split]; vm_compute; reflexivity. Qed.

(** * C183 *)

(** A client that asks a second time, now for two items that the server does not have: it reports one of them, since its final protocol object still
    holds the match of the first run. The caller empties [mIntersection] between the runs ([mkDclient (dcPsi cl1) []]). *)
Definition exTable3 : list N := [packWord 0 0; e; packWord 2 0; e; packWord 1 0; e; e; e].
Theorem C183_again_refuted : exists p enc aes prng c serverSet bins inputs1 inputs2 cl1 cl2 i x, sizesOk p /\ choicesOk p c /\ tableOk enc p serverSet bins /\
  length inputs1 = dN p /\ queriesFit enc p inputs1 /\ masksFresh p (cMask c) serverSet inputs1 /\ 0 ∉ inputs1 /\
  length inputs2 = dN p /\ queriesFit enc p inputs2 /\ masksFresh p (cMask c) serverSet inputs2 /\ 0 ∉ inputs2 /\
  drrnUse (mkDclient [] []) p enc aes prng c serverSet bins inputs1 = Some cl1 /\
  drrnUse (mkDclient (dcPsi cl1) []) p enc aes prng c serverSet bins inputs2 = Some cl2 /\
  drrn p enc aes prng c serverSet bins inputs2 = Some [] /\
  i ∈ dcOut cl2 /\ inputs2 !! i = Some x /\ x ∉ serverSet.
Proof.
  exists exP, exEnc, exAes, exPrng, exC, [104; 140; 218], exTable3, [140; 300], [301; 302].
  eexists _, _, 0%nat, 301. split; [exact exP_sizes|]. split; [exact exC_ok|]. split; [unfold exTable3; exTab|].
  split; [done|]. split; [apply exFit|]. split; [apply exMask_fresh; repeat constructor|]. split; [exNot|].
  split; [done|]. split; [apply exFit|]. split; [apply exMask_fresh; repeat constructor|]. split; [exNot|].
  split; [vm_compute; reflexivity|]. split; [vm_compute; reflexivity|]. split; [vm_compute; reflexivity|].
  split; [apply (bool_decide_unpack _); by vm_compute|]. split; [done|exNot].
Qed.
Print Assumptions C183_again_refuted.

(** A client object whose final protocol object is new reports its old items and those of this run. Missing: objects used before. *)
Theorem C183_fresh_partial p enc aes prng c serverSet bins inputs out l : drrn p enc aes prng c serverSet bins inputs = Some out ->
  exists cl, drrnUse (mkDclient [] l) p enc aes prng c serverSet bins inputs = Some cl /\ (l = [] -> dcOut cl = out) /\
    forall i, i ∈ dcOut cl <-> i ∈ l \/ i ∈ out.
Proof. exact (use_fresh p enc aes prng c serverSet bins inputs out l). Qed.
Print Assumptions C183_fresh_partial.

(** In every use nothing is lost: the items of the run are reported, and the object remembers its matches. *)
Theorem C183_complete p enc aes prng c serverSet bins inputs cl cl' : drrnUse cl p enc aes prng c serverSet bins inputs = Some cl' ->
  exists new out, dcPsi cl' = dcPsi cl ++ new /\ drrn p enc aes prng c serverSet bins inputs = Some out /\
    (forall i, i ∈ dcOut cl \/ i ∈ out -> i ∈ dcOut cl').
Proof. exact (use_again p enc aes prng c serverSet bins inputs cl cl'). Qed.
Print Assumptions C183_complete.
Example C183_example : exists cl1 cl2, drrnUse (mkDclient [] [5%nat]) exP exEnc exAes exPrng exC [104; 140; 218] exTable3 [140; 300] = Some cl1 /\
  dcOut cl1 = [5; 0]%nat /\ drrnUse cl1 exP exEnc exAes exPrng exC [104; 140; 218] exTable3 [301; 218] = Some cl2 /\ length (dcPsi cl2) = 2%nat /\ 1%nat ∈ dcOut cl2.
Proof.
  eexists _, _. split; [vm_compute; reflexivity|]. split; [reflexivity|]. split; [vm_compute; reflexivity|]. split; [reflexivity|].
  apply (bool_decide_unpack _); by vm_compute.
Qed.
