(** Property theorems about the Bloom-filter PSI (C35, C36, C72, C73). *)
From Verif Require Import Base Dcw_Model Dcw_Spec Dcw_Proofs.

(** [o1], [o2]: the objects before [init]; [rs], [ss]: the parties' random seeds; [T]: number of channels. *)

(** A run to use in the examples: 2 items each, 3 channels. *)
Definition exAes (k x : N) : N := k * (x + 3) + 2 ^ 64 * (k + x * x).
Definition exPrng (s : N) (j : nat) : N := s + N.of_nat (j * j).
Definition exOt (t j : nat) (c : bool) : N := N.of_nat (j + 1) * 1021 + N.of_nat t * 7 + (if c then 2 ^ 20 else 0).
Definition exChoices : list bool := map (fun i => (i mod 3 =? 1)%nat) (seq 0 384).
Definition exNewR : dcwReceiver := mkDcwReceiver 0 0 [] [] [].
Definition exNewS : dcwSender := mkDcwSender 0 0 [].
Definition exR : list N := [10; 30].
Definition exS : list N := [30; 99].
Definition exRun (R S : list N) : option (outcome (list N)) :=
  match recvInit exOt 2 3 77 88 exChoices exNewR, sendInit exOt 2 3 88 77 exNewS with
  | Some r, Some s => Some (dcwRun exAes exPrng r s R S)
  | _, _ => None
  end.

(** * C35 *)

(** One item each, the same one, OT messages that are all zero: the encoding has key 0, the reserved key of the map. *)
Theorem C35_dcw_complete_refuted : exists aes prng ot choices r s,
  recvInit ot 1 1 1 2 choices exNewR = Some r /\ sendInit ot 1 1 2 1 exNewS = Some s /\ length choices = 192%nat /\
  dcwRun aes prng r s [5] [5] = UB.
Proof.
  exists exAes, exPrng, (fun _ _ _ => 0), (replicate 192 false). eexists _, _.
  split; [vm_compute; reflexivity|]. split; [vm_compute; reflexivity|]. split; vm_compute; reflexivity.
Qed.
Print Assumptions C35_dcw_complete_refuted.

(** What holds: both [init]s succeed; the run gives an answer when the encodings of the receiver's items have
    distinct nonzero low halves; and whenever it gives an answer, all common items are reported. *)
Theorem C35_dcw_complete_partial aes prng ot n T rs ss choices o1 o2 R S :
  (0 < T)%nat -> N.of_nat (192 * n) * N.of_nat T < 2 ^ 64 -> length choices = (192 * n)%nat -> length R = n -> length S = n ->
  exists r s, recvInit ot n T rs ss choices o1 = Some r /\ sendInit ot n T ss rs o2 = Some s /\
    (NoDup (map (fun x => dcwEnc aes prng r x mod 2 ^ 64) R) -> (forall x, x ∈ R -> dcwEnc aes prng r x mod 2 ^ 64 <> 0) ->
       exists out, dcwRun aes prng r s R S = Done (drIntersection o1 ++ out)) /\
    (forall out i x, dcwRun aes prng r s R S = Done out -> R !! i = Some x -> x ∈ S -> N.of_nat i ∈ out).
Proof.
  intros HT Hw Lc HR HS.
  destruct (inits_run ot n T choices rs rs ss ss o1 o2 Hw Lc) as (r & s & Er & Es). exists r, s.
  split; [done|]. split; [done|]. split.
  - intros ND Z. eapply dcw_done; try done. intros H. apply elem_of_list_fmap in H as (x & E & Hx). by apply (Z x).
  - intros out i x. by eapply dcw_complete.
Qed.
Print Assumptions C35_dcw_complete_partial.
Example C35_example : exRun exR exS = Some (Done [1]).
Proof. vm_compute. reflexivity. Qed.

(** * C36 *)

Theorem C36_dcw_sound aes prng ot n T rs ss choices o1 o2 r s R S out :
  (0 < T)%nat -> N.of_nat (192 * n) * N.of_nat T < 2 ^ 64 -> length choices = (192 * n)%nat -> length R = n -> length S = n ->
  recvInit ot n T rs ss choices o1 = Some r -> sendInit ot n T ss rs o2 = Some s ->
  (forall corr map masks theirs x j y,
     recvFirst aes prng r R = Done (corr, map, masks) -> senderMasks aes prng s S corr = Done theirs ->
     x ∈ R -> S !! j = Some y -> theirs !! j = Some (dcwEnc aes prng r x) -> x = y) ->
  dcwRun aes prng r s R S = Done out -> out = drIntersection o1 ++ commonPositions R S.
Proof. intros HT Hw Lc HR HS Er Es H E. by eapply dcw_sound. Qed.
Print Assumptions C36_dcw_sound.
Example C36_example : commonPositions exR exS = [1] /\ exRun exR exS = Some (Done (commonPositions exR exS)).
Proof. split; vm_compute; reflexivity. Qed.

Theorem C36_equal_keys_throw aes prng ot n T rs ss choices o1 o2 r s R S :
  (0 < T)%nat -> N.of_nat (192 * n) * N.of_nat T < 2 ^ 64 -> length choices = (192 * n)%nat -> length R = n -> length S = n ->
  recvInit ot n T rs ss choices o1 = Some r -> sendInit ot n T ss rs o2 = Some s ->
  (forall x, x ∈ R -> dcwEnc aes prng r x mod 2 ^ 64 <> 0) ->
  ~ NoDup (map (fun x => dcwEnc aes prng r x mod 2 ^ 64) R) ->
  dcwRun aes prng r s R S = Thrown (drIntersection o1).
Proof.
  intros HT Hw Lc HR HS Er Es Z ND. eapply dcw_dup; try done.
  intros H. apply elem_of_list_fmap in H as (x & E & Hx). by apply (Z x).
Qed.
Print Assumptions C36_equal_keys_throw.
Example C36_throw_example : exRun [10; 10] exS = Some (Thrown []).
Proof. vm_compute. reflexivity. Qed.

(** * C72 *)

Theorem C72_dcw_duplicate_input aes prng ot n T rs ss choices o1 o2 r s R S out :
  (0 < T)%nat -> N.of_nat (192 * n) * N.of_nat T < 2 ^ 64 -> length choices = (192 * n)%nat -> length R = n -> length S = n ->
  recvInit ot n T rs ss choices o1 = Some r -> sendInit ot n T ss rs o2 = Some s ->
  ~ NoDup R -> dcwRun aes prng r s R S <> Done out.
Proof. intros HT Hw Lc HR HS Er Es ND. by eapply dcw_dup_item. Qed.
Print Assumptions C72_dcw_duplicate_input.
Example C72_example : ~ NoDup [10; 10] /\ exRun [10; 10] exS = Some (Thrown []) /\
  exRun exR [30; 30] = Some (Done [1; 1]).
Proof. split; [apply (bool_decide_unpack _); vm_compute; done|]. split; vm_compute; reflexivity. Qed.

(** * C73 *)

(** The receiver object of a first run, with the output [out1], is initialised again and used for sets without a
    common item. *)
Theorem C73_dcw_repeated_runs_refuted : exists aes prng ot choices r1 s1 out1 r2 out2,
  recvInit ot 2 3 77 88 choices exNewR = Some r1 /\ sendInit ot 2 3 88 77 exNewS = Some s1 /\
  dcwRun aes prng r1 s1 exR exS = Done out1 /\
  recvInit ot 2 3 77 88 choices (mkDcwReceiver (drN r1) (drSeed r1) (drMsgs r1) (drChoices r1) out1) = Some r2 /\
  dcwRun aes prng r2 s1 exR [1; 2] = Done out2 /\ out2 <> [].
Proof.
  exists exAes, exPrng, exOt, exChoices. eexists _, _, _, _, _.
  split; [vm_compute; reflexivity|]. split; [vm_compute; reflexivity|]. split; [vm_compute; reflexivity|].
  split; [vm_compute; reflexivity|]. split; [vm_compute; reflexivity|]. discriminate.
Qed.
Print Assumptions C73_dcw_repeated_runs_refuted.

(** What holds: an object whose output is still empty, whatever OT messages, size and seed an earlier [init] left in it,
    reports exactly the common items. *)
Theorem C73_dcw_repeated_runs_partial aes prng ot n T rs ss choices o1 o2 r s R S out :
  (0 < T)%nat -> N.of_nat (192 * n) * N.of_nat T < 2 ^ 64 -> length choices = (192 * n)%nat -> length R = n -> length S = n ->
  recvInit ot n T rs ss choices o1 = Some r -> sendInit ot n T ss rs o2 = Some s -> drIntersection o1 = [] ->
  (forall corr map masks theirs x j y,
     recvFirst aes prng r R = Done (corr, map, masks) -> senderMasks aes prng s S corr = Done theirs ->
     x ∈ R -> S !! j = Some y -> theirs !! j = Some (dcwEnc aes prng r x) -> x = y) ->
  dcwRun aes prng r s R S = Done out -> out = commonPositions R S.
Proof. intros HT Hw Lc HR HS Er Es Hi H E. rewrite (dcw_sound aes prng ot n T rs ss choices o1 r o2 s R S HT Hw Lc Er Es HR HS out E H). by rewrite Hi. Qed.
Print Assumptions C73_dcw_repeated_runs_partial.
Example C73_example : match recvInit exOt 2 3 77 88 exChoices (mkDcwReceiver 9 9 (replicate 900 9) [] []), sendInit exOt 2 3 88 77 exNewS with
  | Some r, Some s => dcwRun exAes exPrng r s exR exS
  | _, _ => UB
  end = Done [1].
Proof. vm_compute. reflexivity. Qed.
