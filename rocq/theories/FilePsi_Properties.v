(** Property theorems about file-based PSI (C193, C194). *)
From Verif Require Import Base File_Model File_Spec File_Proofs CuckooIndex_Model CuckooIndex_Spec Kkrt_Model Kkrt_Spec Kkrt_Proofs Ecdh_Model Ecdh_Spec Ecdh_Proofs
  Rr17_Model Rr17a_Model Rr17a_Spec Rr17a_Proofs FilePsi_Model FilePsi_Spec FilePsi_Proofs FilePsi_Proofs2 FilePsi_Proofs3 FilePsi_Proofs4.

(** * C193 *)

(** With -kkrt. [p]: the cuckoo parameters, [ms]: bytes of a mask. The hash table has room, the sender's threads get enough turns, masks do not collide. *)
Theorem C193_kkrt w ro p1 p2 c1 c2 f1 f2 (S R : list N) p ms :
  readSet ro f1 (chooseType c1) (cDebug c1) = Done S -> readSet ro f2 (chooseType c2) (cDebug c2) = Done R -> partners c1 c2 (length S) (length R) ->
  cKkrt c1 = true -> cKkrt c2 = true ->
  p = wSel w (N.max 200 (N.of_nat (length R))) -> ms = (wSsp w + N.log2 (N.of_nat (length S) * N.of_nat (length R)) + 7) / 8 ->
  (0 < length S)%nat -> (0 < length R)%nat -> N.of_nat (length S) < 2 ^ 32 -> N.of_nat (length S) * N.of_nat (length R) < 2 ^ 64 ->
  legalParams p -> pStashSize p = 0%nat -> pNumBins p < 2 ^ 64 - 1 -> (length R <= CuckooIndex_Model.pN p)%nat -> N.of_nat (CuckooIndex_Model.pN p) < 2 ^ 56 ->
  (exists o c, recvInit p (mkKReceiver (constructed (wLim w)) []) = Done o /\ insertItems (wEnc w (wSeed w)) (krIndex o) R 0 = Done c) ->
  (exists s1 s2, wSched w = s1 ++ s2 /\ 2 * pNumBins p <= N.of_nat (length (filter (fun b => b = true) s1)) /\ (1024 < length (filter (fun b => b = false) s2))%nat) ->
  noFalseMatch (wF w) (wEnc w (wSeed w)) (pNumBins p) ms R S -> junkHarmless (wF w) (wEnc w (wSeed w)) (wJunk w) (pNumBins p) ms R ->
  keysDistinct (wF w) (wEnc w (wSeed w)) (pNumBins p) ms R ->
  exists out pos, filePsi (runFiles w) ro p1 p2 c1 c2 f1 f2 = Done out /\ positionsFile (chooseType c2) out pos /\ positionsOf R S pos /\ (NoDup S -> NoDup pos).
Proof. exact (kkrt_run w ro p1 p2 c1 c2 f1 f2 S R p ms). Qed.
Print Assumptions C193_kkrt.
(** With -rr17a; the smaller set is padded if -padSmallSet is given. *)
Theorem C193_rr17a w ro p1 p2 c1 c2 f1 f2 (S R S' R' : list N) :
  readSet ro f1 (chooseType c1) (cDebug c1) = Done S -> readSet ro f2 (chooseType c2) (cDebug c2) = Done R -> partners c1 c2 (length S) (length R) ->
  cKkrt c1 = false -> cKkrt c2 = false -> cRr17a c1 = true -> cRr17a c2 = true -> (length S <> length R -> cPad c1 = true /\ cPad c2 = true) ->
  S' = S ++ pads p1 (length S) (length R) -> R' = R ++ pads p2 (length R) (length S) ->
  Forall (fun x => x ∉ R') (pads p1 (length S) (length R)) -> Forall (fun x => x ∉ S') (pads p2 (length R) (length S)) ->
  N.of_nat (length R) < 2 ^ 64 ->
  paramsOk (wInit w (length R')) R' -> paramsOk (wInit w (length R')) S' -> pT (wInit w (length R')) = 1%nat -> randOk (wInit w (length R')) (wRand w (length R')) ->
  NoDup R' -> collisionFree (wInit w (length R')) (remove_dups (R' ++ S')) ->
  exists out pos, filePsi (runFiles w) ro p1 p2 c1 c2 f1 f2 = Done out /\ positionsFile (chooseType c2) out pos /\ positionsOf R S pos /\ (NoDup S' -> NoDup pos).
Proof. exact (rr17a_run w ro p1 p2 c1 c2 f1 f2 S R S' R'). Qed.
Print Assumptions C193_rr17a.
(** What the positions mean: rows of two CSV files ... *)
Theorem C193_rows ro rows1 rows2 d1 d2 S R :
  Forall (fun r => 10 ∉ r) rows1 -> Forall (fun r => 10 ∉ r) rows2 -> oracleGood ro (rows1 ++ rows2) ->
  readSet ro (unlines rows1) Csv d1 = Done S -> readSet ro (unlines rows2) Csv d2 = Done R ->
  length S = length rows1 /\ length R = length rows2 /\
  forall i, (exists x, R !! i = Some x /\ x ∈ S) <-> exists r r', rows2 !! i = Some r /\ r' ∈ rows1 /\ sameRow r r'.
Proof. exact (rows_items ro rows1 rows2 d1 d2 S R). Qed.
Print Assumptions C193_rows.
(** ... and pieces of 16 bytes of two binary files. *)
Theorem C193_slices ro f1 f2 d1 d2 S R : Forall (fun b => b < 256) f1 -> Forall (fun b => b < 256) f2 ->
  readSet ro f1 Bin d1 = Done S -> readSet ro f2 Bin d2 = Done R ->
  length f1 = (16 * length S)%nat /\ length f2 = (16 * length R)%nat /\
  forall i, (exists x, R !! i = Some x /\ x ∈ S) <-> (i < length R)%nat /\ exists j, (j < length S)%nat /\ take 16 (drop (16 * i) f2) = take 16 (drop (16 * j) f1).
Proof. exact (slices_items ro f1 f2 d1 d2 S R). Qed.
Print Assumptions C193_slices.

(** A sender with a CSV file of hexadecimal rows and a receiver with a binary file. *)
Definition exR : list N := [3; 14; 15; 92; 65].
Definition exS : list N := [35; 92; 14; 7; 8; 9; 10; 11; 12; 65].
Definition exF (b x : N) : N := b * 2 ^ 40 + x + 1.
Definition exEnc (seed x : N) : N := x * 0x9e3779b97f4a7c15f39cc0605cedc835 + seed.
Definition exAes (x : N) : N := (x * 0x9e3779b97f4a7c15f39cc0605cedc835) mod 2 ^ 128.
Definition exEncR (t i : nat) (x : N) : N := (x + 1) * 2 ^ 32 + N.of_nat t * 2 ^ 8 + N.of_nat i.
Definition exEncS (t i : nat) (x : N) : N := N.of_nat i * 2 ^ 16.
Definition exInit (n : nat) : params := mkParams true exAes n 4 4 7 1 exEncR exEncS.
Definition exRand (n : nat) : rand :=
  mkRand (fun b i => N.of_nat (b + 3 * i)) (fun _ => rev (seq 0 4)) (rev (seq 0 n)) (seq 0 n) (rev (seq 0 n)) (rev (places 4 4 1)) (rev (seq 0 1)).
Definition exSmul (p k : N) : N := p * k mod (2 ^ 61 - 1).
Definition exPt (h : N) : N := h mod (2 ^ 61 - 1).
Definition exRoItem (len : nat) (x : N) : N := (x * x * 0x9e3779b97f4a7c15f39cc0605cedc835 + x) mod 2 ^ 128.
Definition exRoPoint (p : N) : N := (p * 0xd1342543de82ef95d1342543de82ef95 + 12345) mod 2 ^ 128.
Definition exW (roPoint : N -> N) (order : list nat) : world :=
  mkWorld 40 exF exEnc 5 (fun _ _ => 2 ^ 80 - 1) (fun _ => mkParam 0 11 3 8) 20 (fun i => N.of_nat (i * i + 7)) (replicate 22 true ++ replicate 1030 false)
    exInit exRand exSmul exPt exRoItem roPoint 20 7 11 order.
Definition exOracle (l : list N) : N := foldl (fun a c => (a * 257 + c + 1) mod 2 ^ 128) 7 l.
Definition exCmd (bin : bool) (role : Z) (pr : protocol) : command :=
  mkCommand [120] bin (negb bin) false (Some role) None None None true (match pr with Kkrt => true | _ => false end) (match pr with Rr17a => true | _ => false end) (match pr with Ecdh => true | _ => false end).
Definition exFileS : list N := unlines (map blockText exS).
Definition exFileR : list N := concat (map (bytesLE 16) exR).

Lemma exBin x b : candidate (exEnc 5) 11 x b -> b < 11.
Proof. intros (j & _ & Hj). unfold mapsTo in Hj. subst b. apply N.mod_lt. done. Qed.
Lemma exSmall x : x ∈ exR ++ exS -> x < 100.
Proof.
  intros Hx. assert (Forall (fun x => x < 100) (exR ++ exS)) as Fa by (repeat constructor).
  rewrite Forall_forall in Fa. by apply Fa.
Qed.
Lemma exF_val b x : b < 11 -> x < 100 -> exF b x mod 256 ^ 6 = b * 1099511627776 + x + 1.
Proof. intros ? ?. unfold exF. change (2 ^ 40) with 1099511627776. apply N.mod_small. change (256 ^ 6) with 281474976710656. lia. Qed.
Example C193_kkrt_example :
  readSet exOracle exFileS Csv false = Done exS /\ readSet exOracle exFileR Bin false = Done exR /\
  partners (exCmd false 0 Kkrt) (exCmd true 1 Kkrt) (length exS) (length exR) /\ legalParams (mkParam 0 11 3 8) /\
  (exists o c, recvInit (mkParam 0 11 3 8) (mkKReceiver (constructed 20) []) = Done o /\ insertItems (exEnc 5) (krIndex o) exR 0 = Done c) /\
  noFalseMatch exF (exEnc 5) 11 6 exR exS /\ junkHarmless exF (exEnc 5) (fun _ _ => 2 ^ 80 - 1) 11 6 exR /\ keysDistinct exF (exEnc 5) 11 6 exR /\
  filePsi (runFiles (exW exRoPoint [])) exOracle (fun _ => 0) (fun _ => 0) (exCmd false 0 Kkrt) (exCmd true 1 Kkrt) exFileS exFileR = Done (concat (map (bytesLE 8) [4; 1; 3])).
Proof.
  split; [vm_compute; reflexivity|]. split; [vm_compute; reflexivity|].
  split; [split; [done|]; split; [done|]; split; [by split|]; split; intros n [X|X]; discriminate X|].
  split; [vm_compute; done|]. split; [eexists _, _; split; [reflexivity|vm_compute; reflexivity]|]. split; [|split; [|split]].
  - intros x y b b' Rx Sy Cx Cy E. apply exBin in Cx, Cy.
    assert (x < 100) by (apply exSmall, elem_of_app; auto). assert (y < 100) by (apply exSmall, elem_of_app; auto).
    rewrite !exF_val in E by done. lia.
  - intros i h x b Rx Cx E. apply exBin in Cx. assert (x < 100) by (apply exSmall, elem_of_app; auto).
    rewrite exF_val in E by done. change ((2 ^ 80 - 1) mod 256 ^ 6) with 281474976710655 in E. lia.
  - intros x x' b b' Rx Rx' Cx Cx' E. apply exBin in Cx, Cx'.
    assert (x < 100) by (apply exSmall, elem_of_app; auto). assert (x' < 100) by (apply exSmall, elem_of_app; auto).
    rewrite !exF_val in E by done. change (2 ^ 64) with 18446744073709551616 in E. rewrite !N.mod_small in E by lia. lia.
  - vm_compute. reflexivity.
Qed.

Definition exPadR : list N := exR ++ [1000; 1001; 1002; 1003; 1004].
Definition paramsOkb (P : params) (l : list N) : bool :=
  bool_decide ((0 < pN P)%nat /\ (0 < pNb P)%nat /\ (0 < pCap P)%nat /\ (0 < pT P)%nat /\ pMask P <= 16 /\ N.of_nat (pNb P) * N.of_nat (pT P) < 2 ^ 64 /\
    length l = pN P /\ Forall (fun b => (load P l b <= pCap P)%nat) (seq 0 (pNb P))).
Lemma paramsOkb_ok P l : paramsOkb P l = true -> paramsOk P l.
Proof.
  intros H. apply bool_decide_eq_true in H as (H1 & H2 & H3 & H4 & H5 & H6 & H7 & H8). split; [done|]. split; [done|]. split; [done|]. split; [done|]. split; [done|]. split; [done|]. split; [done|].
  intros b. destruct (decide (b < pNb P)%nat) as [Hb|Hb].
  - rewrite Forall_forall in H8. apply H8, elem_of_seq. lia.
  - unfold load. assert (filter (fun x => itemBin P x = b) l = []) as ->; [|cbn; lia]. clear H7 H8.
    induction l as [|x l IH]; [done|]. rewrite filter_cons_False; [done|]. pose proof (itemBin_lt P x H2). lia.
Qed.
Lemma exNoDup : NoDup exPadR.
Proof. apply (bool_decide_unpack _). vm_compute. exact I. Qed.
Lemma exFree : collisionFree (exInit 10) (remove_dups (exPadR ++ exS)).
Proof. apply (bool_decide_unpack _). vm_compute. exact I. Qed.
Lemma exRandOk : randOk (exInit 10) (exRand 10).
Proof. unfold randOk. cbn [rShuf rMaskPerm rOrdR rOrdS rPlaces rOut exRand pCap pN pNb pT exInit]. repeat split; intros; rewrite <- ?Permutation_rev; done. Qed.
Example C193_rr17a_example :
  pads (fun i => 1000 + N.of_nat i) (length exR) (length exS) = [1000; 1001; 1002; 1003; 1004] /\
  Forall (fun x => x ∉ exS) [1000; 1001; 1002; 1003; 1004] /\ paramsOk (exInit 10) exPadR /\ paramsOk (exInit 10) exS /\ randOk (exInit 10) (exRand 10) /\
  NoDup exPadR /\ collisionFree (exInit 10) (remove_dups (exPadR ++ exS)) /\
  filePsi (runFiles (exW exRoPoint [])) exOracle (fun _ => 0) (fun i => 1000 + N.of_nat i) (exCmd false 0 Rr17a) (exCmd true 1 Rr17a) exFileS exFileR = Done (concat (map (bytesLE 8) [3; 4; 1])).
Proof.
  split; [reflexivity|]. split; [apply (bool_decide_unpack _); vm_compute; exact I|]. split; [by apply paramsOkb_ok; vm_compute|]. split; [by apply paramsOkb_ok; vm_compute|].
  split; [exact exRandOk|]. split; [exact exNoDup|]. split; [exact exFree|]. vm_compute. reflexivity.
Qed.
Example C193_rows_example : oracleGood exOracle ([[48; 97]; replicate 32 97] ++ [[48; 65]; replicate 32 65]) /\ sameRow [48; 97] [48; 97] /\ ~ sameRow [48; 97] [48; 65] /\ sameRow (replicate 32 97) (replicate 32 65) /\
  readSet exOracle (unlines [[48; 97]; replicate 32 97]) Csv false = Done [exOracle [48; 97]; 226854911280625642308916404954512140970] /\
  readSet exOracle (unlines [[48; 65]; replicate 32 65]) Csv false = Done [exOracle [48; 65]; 226854911280625642308916404954512140970].
Proof.
  split.
  { intros r r' Hr Hr' Nh. cbn [app] in Hr, Hr'.
    assert (r = [48; 97] \/ r = [48; 65]) as X.
    { assert (forall c, c = 97 \/ c = 65 -> hexRow (replicate 32 c)) as Hx by (intros c Hc; split; [reflexivity|apply Forall_replicate; lia]).
      rewrite !elem_of_cons in Hr. destruct Hr as [->|[->|[->|[->|Hr]]]]; [by left| |by right| |by apply elem_of_nil in Hr]; exfalso; apply Nh, Hx; auto. }
    assert (forall c, hexRow [48; c] -> False) as Hn by (intros c [Y _]; discriminate Y).
    assert (r' = [48; 97] \/ r' = [48; 65] \/ map lower r' = replicate 32 97) as X'.
    { rewrite !elem_of_cons in Hr'. destruct Hr' as [->|[->|[->|[->|Hr']]]]; [by left|right; right; reflexivity|by right; left|right; right; reflexivity|by apply elem_of_nil in Hr']. }
    split.
    - intros Nh' E. destruct X' as [->|[->|X']].
      + destruct X as [->| ->]; [done|]. vm_compute in E. discriminate E.
      + destruct X as [->| ->]; [|done]. vm_compute in E. discriminate E.
      + rewrite !elem_of_cons in Hr'. assert (forall c, c = 97 \/ c = 65 -> hexRow (replicate 32 c)) as Hx by (intros c Hc; split; [reflexivity|apply Forall_replicate; lia]).
        destruct Hr' as [->|[->|[->|[->|Hr']]]]; [discriminate X'| |discriminate X'| |by apply elem_of_nil in Hr']; exfalso; apply Nh', Hx; auto.
    - intros Hh b _ Hb E. destruct X' as [->|[->|X']]; [by destruct (Hn _ Hh)|by destruct (Hn _ Hh)|].
      rewrite X', <- E in Hb. destruct X as [->| ->]; vm_compute in Hb; discriminate Hb. }

  split; [by left|]. split; [intros [X|([X _] & _)]; discriminate X|].
  split. { right. split; [split; [reflexivity|apply Forall_replicate; lia]|]. split; [split; [reflexivity|apply Forall_replicate; lia]|]. vm_compute. reflexivity. }
  split; vm_compute; reflexivity.
Qed.

(** * C194 *)

(** Two equal binary files of two items, whose blocks on the curve share their first 32 bits: the second one is not in the output file. *)
Theorem C194_ecdh_refuted : exists w ro p1 p2 c1 c2 f out, partners c1 c2 2 2 /\ cEcdh c1 = true /\ cEcdh c2 = true /\
  (forall z v, wRoPoint w z = wRoPoint w v -> z = v) /\ readSet ro f (chooseType c1) (cDebug c1) = Done [2; 3] /\ readSet ro f (chooseType c2) (cDebug c2) = Done [2; 3] /\
  filePsi (runFiles w) ro p1 p2 c1 c2 f f = Done out /\ positionsFile (chooseType c2) out [0] /\ ~ positionsOf [2; 3] [2; 3] [0].
Proof.
  exists (exW (fun p => p * 2 ^ 32) [0%nat; 0%nat]), exOracle, (fun _ => 0), (fun _ => 0), (exCmd true 0 Ecdh), (exCmd true 1 Ecdh), (concat (map (bytesLE 16) [2; 3])), (bytesLE 8 0).
  split; [split; [done|]; split; [done|]; split; [by split|]; split; intros n [X|X]; discriminate X|].
  split; [done|]. split; [done|]. split; [intros z v; cbn [wRoPoint exW]; lia|]. split; [vm_compute; reflexivity|]. split; [vm_compute; reflexivity|]. split; [vm_compute; reflexivity|].
  split; [split; [reflexivity|repeat constructor]|]. intros H. assert (1 ∈ [0]) as X; [|apply elem_of_list_singleton in X; discriminate X].
  apply H. exists 3. split; [reflexivity|]. apply (bool_decide_unpack _). vm_compute. exact I.
Qed.
Print Assumptions C194_ecdh_refuted.
(** Without such collisions: every complete order of the insertions gives the right file ... *)
Theorem C194_ecdh_partial w ro p1 p2 c1 c2 f1 f2 (S R S' R' : list N) :
  readSet ro f1 (chooseType c1) (cDebug c1) = Done S -> readSet ro f2 (chooseType c2) (cDebug c2) = Done R -> partners c1 c2 (length S) (length R) ->
  cKkrt c1 = false -> cKkrt c2 = false -> cRr17a c1 = false -> cRr17a c2 = false -> cEcdh c1 = true -> cEcdh c2 = true -> (length S <> length R -> cPad c1 = true /\ cPad c2 = true) ->
  S' = S ++ pads p1 (length S) (length R) -> R' = R ++ pads p2 (length R) (length S) ->
  Forall (fun x => x ∉ R') (pads p1 (length S) (length R)) -> Forall (fun x => x ∉ S') (pads p2 (length R) (length S)) ->
  (0 < length R')%nat -> N.of_nat (length R') < 2 ^ 44 ->
  (forall p, wSmul w (wSmul w p (wB w)) (wA w) = wSmul w (wSmul w p (wA w)) (wB w)) -> (forall z, z ∈ R' -> wRoItem w (wHashSize w) z mod 2 ^ 128 = wRoItem w 16%nat z) ->
  (forall x y, x ∈ R' ++ S' -> y ∈ R' ++ S' ->
     dhBlock (wSmul w) (wPt w) id (wRoPoint w) (wRoItem w 16%nat x) (wA w) (wB w) mod 2 ^ 32 = dhBlock (wSmul w) (wPt w) id (wRoPoint w) (wRoItem w 16%nat y) (wA w) (wB w) mod 2 ^ 32 -> x = y) ->
  ecdhFiles w S' R' <> OutOfFuel ->
  exists out pos, filePsi (runFiles w) ro p1 p2 c1 c2 f1 f2 = Done out /\ positionsFile (chooseType c2) out pos /\ positionsOf R S pos /\ NoDup pos.
Proof. exact (ecdh_run w ro p1 p2 c1 c2 f1 f2 S R S' R'). Qed.
Print Assumptions C194_ecdh_partial.
(** ... and there is one: only the order decides whether the model gets to the end. *)
Theorem C194_order_partial w S R : (0 < length R)%nat -> length S = length R -> N.of_nat (length R) < 2 ^ 44 ->
  (forall p, wSmul w (wSmul w p (wB w)) (wA w) = wSmul w (wSmul w p (wA w)) (wB w)) -> (forall z, z ∈ R -> wRoItem w (wHashSize w) z mod 2 ^ 128 = wRoItem w 16%nat z) ->
  exists order, ecdhRun (wSmul w) (wPt w) id id (wRoItem w) (wRoPoint w) (wHashSize w) 1 (wA w) (wB w) R S order [] <> OutOfFuel.
Proof. exact (ecdh_order w S R). Qed.
Print Assumptions C194_order_partial.
Example C194_example :
  (forall p, exSmul (exSmul p 11) 7 = exSmul (exSmul p 7) 11) /\
  (forall z, z ∈ exPadR -> exRoItem 20 z mod 2 ^ 128 = exRoItem 16 z) /\
  NoDup (map (fun x => dhBlock exSmul exPt id exRoPoint (exRoItem 16 x) 7 11 mod 2 ^ 32) (remove_dups (exPadR ++ exS))) /\
  filePsi (runFiles (exW exRoPoint (replicate 10 0%nat))) exOracle (fun _ => 0) (fun i => 1000 + N.of_nat i) (exCmd false 0 Ecdh) (exCmd true 1 Ecdh) exFileS exFileR = Done (concat (map (bytesLE 8) [1; 3; 4])).
Proof.
  split. { intros p. unfold exSmul. rewrite !N.mul_mod_idemp_l by done. f_equal. lia. }
  split. { intros z _. unfold exRoItem. apply N.mod_mod. done. }
  split; [apply (bool_decide_unpack _); vm_compute; exact I|]. vm_compute. reflexivity.
Qed.
