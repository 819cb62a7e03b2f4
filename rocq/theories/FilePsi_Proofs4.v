From Verif Require Import Base File_Model File_Spec File_Proofs CuckooIndex_Model CuckooIndex_Spec Kkrt_Model Kkrt_Spec Ecdh_Model Ecdh_Spec Ecdh_Proofs
  Rr17_Model Rr17a_Model Rr17a_Spec FilePsi_Model FilePsi_Spec FilePsi_Proofs FilePsi_Proofs2.

Lemma kkrt_run w ro p1 p2 c1 c2 f1 f2 (S R : list N) p ms :
  readSet ro f1 (chooseType c1) (cDebug c1) = Done S -> readSet ro f2 (chooseType c2) (cDebug c2) = Done R -> partners c1 c2 (length S) (length R) ->
  cKkrt c1 = true -> cKkrt c2 = true ->
  p = wSel w (N.max 200 (N.of_nat (length R))) -> ms = (wSsp w + N.log2 (N.of_nat (length S) * N.of_nat (length R)) + 7) / 8 ->
  (0 < length S)%nat -> (0 < length R)%nat -> N.of_nat (length S) < 2 ^ 32 -> N.of_nat (length S) * N.of_nat (length R) < 2 ^ 64 ->
  legalParams p -> pStashSize p = 0%nat -> pNumBins p < 2 ^ 64 - 1 -> (length R <= CuckooIndex_Model.pN p)%nat -> N.of_nat (CuckooIndex_Model.pN p) < 2 ^ 56 ->
  (exists o c, recvInit p (mkKReceiver (constructed (wLim w)) []) = Done o /\ insertItems (wEnc w (wSeed w)) (krIndex o) R 0 = Done c) ->
  (exists s1 s2, wSched w = s1 ++ s2 /\ 2 * pNumBins p <= N.of_nat (length (filter (fun b => b = true) s1)) /\ (1024 < length (filter (fun b => b = false) s2))%nat) ->
  noFalseMatch (wF w) (wEnc w (wSeed w)) (pNumBins p) ms R S -> junkHarmless (wF w) (wEnc w (wSeed w)) (wJunk w) (pNumBins p) ms R ->
  keysDistinct (wF w) (wEnc w (wSeed w)) (pNumBins p) ms R ->
  exists out pos, filePsi (runFiles w) ro p1 p2 c1 c2 f1 f2 = Done out /\ positionsFile (chooseType c2) out pos /\ positionsOf R S pos /\ (NoDup S -> NoDup pos).
Proof.
  intros E1 E2 Pt K1 K2 Ep Em HS HR S32 Prod LP St NB Rn N56 In Sc FM JH KD.
  destruct (kkrt_out w S R p ms Ep Em HS HR S32 Prod LP St NB Rn N56 In Sc FM JH KD) as (pos & Er & Po & ND).
  rewrite (filePsi_run (runFiles w) ro p1 p2 c1 c2 f1 f2 S R Kkrt E1 E2 Pt K1 K2). cbn [size sets runFiles]. rewrite Er.
  exists (writeOutput (chooseType c2) pos), pos. split; [done|]. split; [|done].
  apply written; [exact (chosen _ _ _ _ E2)|]. apply (positions_bound R S); [done|nia].
Qed.

Lemma padded_eq p q (S R : list N) : length (S ++ pads p (length S) (length R)) = length (R ++ pads q (length R) (length S)).
Proof. unfold pads. rewrite !app_length, !map_length, !seq_length. lia. Qed.
Lemma padded_len p (S : list N) m : length (S ++ pads p (length S) m) = Nat.max (length S) m.
Proof. unfold pads. rewrite app_length, map_length, seq_length. lia. Qed.

Lemma rr17a_run w ro p1 p2 c1 c2 f1 f2 (S R S' R' : list N) :
  readSet ro f1 (chooseType c1) (cDebug c1) = Done S -> readSet ro f2 (chooseType c2) (cDebug c2) = Done R -> partners c1 c2 (length S) (length R) ->
  cKkrt c1 = false -> cKkrt c2 = false -> cRr17a c1 = true -> cRr17a c2 = true -> (length S <> length R -> cPad c1 = true /\ cPad c2 = true) ->
  S' = S ++ pads p1 (length S) (length R) -> R' = R ++ pads p2 (length R) (length S) ->
  Forall (fun x => x ∉ R') (pads p1 (length S) (length R)) -> Forall (fun x => x ∉ S') (pads p2 (length R) (length S)) ->
  N.of_nat (length R) < 2 ^ 64 ->
  paramsOk (wInit w (length R')) R' -> paramsOk (wInit w (length R')) S' -> pT (wInit w (length R')) = 1%nat -> randOk (wInit w (length R')) (wRand w (length R')) ->
  NoDup R' -> collisionFree (wInit w (length R')) (remove_dups (R' ++ S')) ->
  exists out pos, filePsi (runFiles w) ro p1 p2 c1 c2 f1 f2 = Done out /\ positionsFile (chooseType c2) out pos /\ positionsOf R S pos /\ (NoDup S' -> NoDup pos).
Proof.
  intros E1 E2 Pt K1 K2 A1 A2 Pd ES ER D1 D2 L64 P1 P2 T1 Rd ND CF.
  assert (length S' = length R') as L by (rewrite ES, ER; apply padded_eq).
  destruct (rr17a_out w S' R' L P1 P2 T1 Rd ND CF) as (pos & Er & Po & NDp).
  assert (negb (length S =? length R)%nat = true -> cPad c1 = true /\ cPad c2 = true) as Pd' by (intros X; apply Pd; by apply negb_true_iff, Nat.eqb_neq in X).
  rewrite (filePsi_run (runFiles w) ro p1 p2 c1 c2 f1 f2 S R Rr17a E1 E2 Pt).
  2: split; [done|]; split; [done|]; intros X; by apply Pd'. 2: split; [done|]; split; [done|]; intros X; by apply Pd'.
  cbn [size sets runFiles]. rewrite <- ES, <- ER. rewrite (Nat.max_comm (length R) (length S)).
  assert (Nat.max (length S) (length R) = length R') as ->. { rewrite ER, padded_len. lia. }
  rewrite Er. exists (writeOutput (chooseType c2) pos), pos. split; [done|].
  assert (positionsOf R S pos) as Q. { rewrite ER, ES in Po. apply (positions_pads _ _ _ _ _ Po); [by rewrite <- ER|by rewrite <- ES]. }
  split; [|done]. apply written; [exact (chosen _ _ _ _ E2)|]. exact (positions_bound R S pos Q L64).
Qed.

Lemma ecdh_run w ro p1 p2 c1 c2 f1 f2 (S R S' R' : list N) :
  readSet ro f1 (chooseType c1) (cDebug c1) = Done S -> readSet ro f2 (chooseType c2) (cDebug c2) = Done R -> partners c1 c2 (length S) (length R) ->
  cKkrt c1 = false -> cKkrt c2 = false -> cRr17a c1 = false -> cRr17a c2 = false -> cEcdh c1 = true -> cEcdh c2 = true -> (length S <> length R -> cPad c1 = true /\ cPad c2 = true) ->
  S' = S ++ pads p1 (length S) (length R) -> R' = R ++ pads p2 (length R) (length S) ->
  Forall (fun x => x ∉ R') (pads p1 (length S) (length R)) -> Forall (fun x => x ∉ S') (pads p2 (length R) (length S)) ->
  (0 < length R')%nat -> N.of_nat (length R') < 2 ^ 44 ->
  (forall p, wSmul w (wSmul w p (wB w)) (wA w) = wSmul w (wSmul w p (wA w)) (wB w)) -> (forall z, z ∈ R' -> wRoItem w (wHashSize w) z mod 2 ^ 128 = wRoItem w 16%nat z) ->
  (forall x y, x ∈ R' ++ S' -> y ∈ R' ++ S' ->
     dhBlock (wSmul w) (wPt w) id (wRoPoint w) (wRoItem w 16%nat x) (wA w) (wB w) mod 2 ^ 32 = dhBlock (wSmul w) (wPt w) id (wRoPoint w) (wRoItem w 16%nat y) (wA w) (wB w) mod 2 ^ 32 -> x = y) ->
  ecdhFiles w S' R' <> OutOfFuel ->
  exists out pos, filePsi (runFiles w) ro p1 p2 c1 c2 f1 f2 = Done out /\ positionsFile (chooseType c2) out pos /\ positionsOf R S pos /\ NoDup pos.
Proof.
  intros E1 E2 Pt K1 K2 A1 A2 C1 C2 Pd ES ER D1 D2 H0 L44 CM HA CF NF.
  assert (length S' = length R') as L by (rewrite ES, ER; apply padded_eq).
  assert (N.of_nat (length R') * N.of_nat 1 < 2 ^ 64) as B64. { assert (2 ^ 44 < 2 ^ 64) by (apply N.pow_lt_mono_r; lia). lia. }
  destruct (proj2 (ecdh_C32 (wSmul w) (wPt w) id id (wRoItem w) (wRoPoint w) (wHashSize w) 1 (wA w) (wB w) R' S' (ecdhInit []) ltac:(lia) H0 L B64 L44 (fun p => eq_refl) CM HA) (wOrder w))
    as [X|(pos & Er & _)]; [by destruct (NF X)|].
  destruct (ecdh_out w S' R' pos H0 L L44 CM HA CF Er) as [Po NDp].
  assert (negb (length S =? length R)%nat = true -> cPad c1 = true /\ cPad c2 = true) as Pd' by (intros X; apply Pd; by apply negb_true_iff, Nat.eqb_neq in X).
  rewrite (filePsi_run (runFiles w) ro p1 p2 c1 c2 f1 f2 S R Ecdh E1 E2 Pt).
  2: split; [done|]; split; [done|]; split; [done|]; intros X; by apply Pd'. 2: split; [done|]; split; [done|]; split; [done|]; intros X; by apply Pd'.
  cbn [size sets runFiles]. rewrite <- ES, <- ER. change (ecdhFiles w S' R') with (ecdhRun (wSmul w) (wPt w) id id (wRoItem w) (wRoPoint w) (wHashSize w) 1 (wA w) (wB w) R' S' (wOrder w) (ecdhInit [])).
  rewrite Er. exists (writeOutput (chooseType c2) pos), pos. split; [done|].
  assert (positionsOf R S pos) as Q. { rewrite ER, ES in Po. apply (positions_pads _ _ _ _ _ Po); [by rewrite <- ER|by rewrite <- ES]. }
  split; [|done]. apply written; [exact (chosen _ _ _ _ E2)|]. apply (positions_bound R S pos Q).
  rewrite ER, app_length in B64. lia.
Qed.

Lemma ecdh_order w S R : (0 < length R)%nat -> length S = length R -> N.of_nat (length R) < 2 ^ 44 ->
  (forall p, wSmul w (wSmul w p (wB w)) (wA w) = wSmul w (wSmul w p (wA w)) (wB w)) -> (forall z, z ∈ R -> wRoItem w (wHashSize w) z mod 2 ^ 128 = wRoItem w 16%nat z) ->
  exists order, ecdhRun (wSmul w) (wPt w) id id (wRoItem w) (wRoPoint w) (wHashSize w) 1 (wA w) (wB w) R S order [] <> OutOfFuel.
Proof.
  intros H0 L L44 CM HA.
  assert (N.of_nat (length R) * N.of_nat 1 < 2 ^ 64) as B64. { assert (2 ^ 44 < 2 ^ 64) by (apply N.pow_lt_mono_r; lia). lia. }
  destruct (proj1 (ecdh_C32 (wSmul w) (wPt w) id id (wRoItem w) (wRoPoint w) (wHashSize w) 1 (wA w) (wB w) R S [] ltac:(lia) H0 L B64 L44 (fun p => eq_refl) CM HA)) as (order & l & E).
  exists order. rewrite E. discriminate.
Qed.
