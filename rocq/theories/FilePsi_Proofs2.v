From Verif Require Import Base File_Model File_Spec File_Proofs CuckooIndex_Model CuckooIndex_Spec Kkrt_Model Kkrt_Spec Kkrt_Proofs KkrtMain_Proofs Masks_Model
  Ecdh_Model Ecdh_Spec Ecdh_Proofs Dcw_Spec Rr17_Model Rr17a_Model Rr17a_Spec Rr17a_Proofs FilePsi_Model FilePsi_Spec FilePsi_Proofs.

Lemma positions_bound R S pos : positionsOf R S pos -> N.of_nat (length R) < 2 ^ 64 -> Forall (fun i => i < 2 ^ 64) pos.
Proof.
  intros P L. apply Forall_forall. intros i Hi. apply P in Hi as (x & Hx & _). apply lookup_lt_Some in Hx. lia.
Qed.

Lemma kkrt_out w (S R : list N) p ms :
  p = wSel w (N.max 200 (N.of_nat (length R))) -> ms = (wSsp w + N.log2 (N.of_nat (length S) * N.of_nat (length R)) + 7) / 8 ->
  (0 < length S)%nat -> (0 < length R)%nat -> N.of_nat (length S) < 2 ^ 32 -> N.of_nat (length S) * N.of_nat (length R) < 2 ^ 64 ->
  legalParams p -> pStashSize p = 0%nat -> pNumBins p < 2 ^ 64 - 1 -> (length R <= CuckooIndex_Model.pN p)%nat -> N.of_nat (CuckooIndex_Model.pN p) < 2 ^ 56 ->
  (exists o c, recvInit p (mkKReceiver (constructed (wLim w)) []) = Done o /\ insertItems (wEnc w (wSeed w)) (krIndex o) R 0 = Done c) ->
  (exists s1 s2, wSched w = s1 ++ s2 /\ 2 * pNumBins p <= N.of_nat (length (filter (fun b => b = true) s1)) /\ (1024 < length (filter (fun b => b = false) s2))%nat) ->
  noFalseMatch (wF w) (wEnc w (wSeed w)) (pNumBins p) ms R S -> junkHarmless (wF w) (wEnc w (wSeed w)) (wJunk w) (pNumBins p) ms R ->
  keysDistinct (wF w) (wEnc w (wSeed w)) (pNumBins p) ms R ->
  exists pos, kkrtFiles w (N.of_nat (length S), N.of_nat (length R)) (N.of_nat (length S), N.of_nat (length R)) S R = Done pos /\
    positionsOf R S pos /\ (NoDup S -> NoDup pos).
Proof.
  intros Ep Em HS HR S32 Prod LP St NB Rn N56 (o & c & Eo & Ec) (s1 & s2 & Es & B1 & B2) FM JH KD.
  unfold kkrtFiles. cbn [fst snd]. rewrite <- Ep.
  assert (kkrtMaskBytes (wSsp w) (N.of_nat (length S)) (N.of_nat (length R)) = Done ms) as ->.
  { unfold kkrtMaskBytes, log2Bytes, two64. rewrite N.mod_small by exact Prod. destruct (N.eqb_spec (N.of_nat (length S) * N.of_nat (length R)) 0); [nia|]. by rewrite Em. }
  rewrite Nat2N.id. destruct (drawPermutation_ok (length S) (wRnd w) S32) as (pm & iv & -> & PM). rewrite Eo.
  assert (permutationOf (length S) pm iv) as PO by (destruct PM as (P1 & P2 & P3); done).
  assert (0 < pNumBins p) as NB0 by (destruct LP; done).
  destruct (sender_finishes (wF w) (wEnc w) (wSeed w) (wJunk w) ms (pNumBins p) pm iv S s1 s2 NB0 NB HS PO B1 B2) as (g & msgs & Esend).
  rewrite Es, Esend. rewrite Nat2N.id.
  destruct (kkrt_exact (wF w) (wEnc w) (wSeed w) (wJunk w) ms p (wLim w) o pm iv S R (s1 ++ s2) g msgs c LP St NB Rn N56 Eo Ec HS PO Esend) as (o' & -> & H1 & H2).
  destruct (H1 FM JH) as [H1a H1b]. exists (krIntersection o'). split; [done|]. split; [|exact H1b].
  intros i. split; [apply H1a|]. intros (x & Hx & Hs). rewrite <- (N2Nat.id i). exact (H2 KD _ _ Hx Hs).
Qed.

(** Padding does not matter. *)
Lemma positions_pads R S r1 r2 pos : positionsOf (R ++ r2) (S ++ r1) pos -> Forall (fun x => x ∉ R ++ r2) r1 -> Forall (fun x => x ∉ S ++ r1) r2 -> positionsOf R S pos.
Proof.
  intros P D1 D2 i. rewrite (P i). rewrite Forall_forall in D1, D2. split.
  - intros (x & Hx & Hs). destruct (decide (N.to_nat i < length R)%nat) as [L|L].
    + rewrite lookup_app_l in Hx by done. exists x. split; [done|]. apply elem_of_app in Hs as [Hs|Hs]; [done|].
      destruct (D1 x Hs). apply elem_of_app. left. by apply elem_of_list_lookup_2 in Hx.
    + rewrite lookup_app_r in Hx by lia. apply elem_of_list_lookup_2 in Hx. by destruct (D2 x Hx).
  - intros (x & Hx & Hs). exists x. split; [by apply lookup_app_l_Some|]. apply elem_of_app. by left.
Qed.

Lemma commonPositions_of R S : NoDup R -> positionsOf R S (commonPositions R S).
Proof.
  intros ND i. unfold commonPositions. rewrite elem_of_list_omap. split.
  - intros (y & Hy & E). destruct (list_find _ R) as [[j z]|] eqn:F; [|done]. injection E as <-. apply list_find_Some in F as (Fj & -> & _).
    exists y. rewrite Nat2N.id. done.
  - intros (x & Hx & Hs). exists x. split; [done|]. assert (is_Some (list_find (fun z => z = x) R)) as [[j z] F].
    { apply list_find_elem_of with (x := x); [by apply elem_of_list_lookup_2 in Hx|done]. }
    rewrite F. apply list_find_Some in F as (Fj & -> & _). rewrite (NoDup_lookup _ _ _ _ ND Fj Hx). by rewrite N2Nat.id.
Qed.
Lemma commonPositions_nodup R S : NoDup S -> NoDup (commonPositions R S).
Proof.
  intros ND. unfold commonPositions. induction ND as [|y S Hy ND IH]; [constructor|]. cbn [omap list_omap].
  destruct (list_find _ R) as [[i z]|] eqn:F; [|exact IH]. constructor; [|exact IH].
  intros X. apply elem_of_list_omap in X as (y' & Hy' & E). destruct (list_find (fun x => x = y') R) as [[j z']|] eqn:F'; [|done].
  injection E as E. apply Nat2N.inj in E as ->. apply list_find_Some in F as (F & -> & _). apply list_find_Some in F' as (F' & -> & _). congruence.
Qed.
Lemma commonIn_of R S : positionsOf R S (commonIn R S).
Proof.
  intros i. unfold commonIn. rewrite elem_of_list_omap. split.
  - intros ([j x] & Hj & E). cbn [fst snd] in E. case_bool_decide; [|done]. injection E as <-. rewrite Nat2N.id. exists x. split; [|done].
    apply elem_of_list_lookup in Hj as (k & Hk). apply lookup_zip_with_Some in Hk as (a & b & [= <- <-] & Ha & Hb).
    apply lookup_seq in Ha as [-> _]. exact Hb.
  - intros (x & Hx & Hs). exists (N.to_nat i, x). split; [|cbn [fst snd]; rewrite bool_decide_true by done; by rewrite N2Nat.id].
    apply elem_of_list_lookup. exists (N.to_nat i). apply lookup_zip_with_Some. exists (N.to_nat i), x. split; [done|]. split; [|done].
    apply lookup_seq. split; [done|]. by apply lookup_lt_Some in Hx.
Qed.
Lemma commonIn_nodup R S : NoDup (commonIn R S).
Proof.
  unfold commonIn. generalize 0%nat as k. induction R as [|x R IH]; intros k; cbn [length seq zip zip_with omap list_omap]; [constructor|].
  cbn [fst snd]. case_bool_decide; [|exact (IH (Datatypes.S k))]. constructor; [|exact (IH (Datatypes.S k))].
  intros X. apply elem_of_list_omap in X as ([j y] & Hj & E). cbn [fst snd] in E. case_bool_decide; [|done]. injection E as E. apply Nat2N.inj in E as ->.
  apply elem_of_zip_l, elem_of_seq in Hj. lia.
Qed.

Lemma rr17a_out w (S R : list N) : length S = length R ->
  paramsOk (wInit w (length R)) R -> paramsOk (wInit w (length R)) S -> Rr17a_Model.pT (wInit w (length R)) = 1%nat -> randOk (wInit w (length R)) (wRand w (length R)) ->
  NoDup R -> collisionFree (wInit w (length R)) (remove_dups (R ++ S)) ->
  exists pos, rr17aFiles w (N.of_nat (length R), N.of_nat (length R)) (N.of_nat (length R), N.of_nat (length R)) S R = Done pos /\ positionsOf R S pos /\ (NoDup S -> NoDup pos).
Proof.
  intros L P1 P2 T1 Rd ND CF. unfold rr17aFiles. cbn [fst snd]. rewrite N.eqb_refl. cbn [negb]. rewrite Nat2N.id.
  destruct (run_exact _ (wRand w (length R)) R S [] T1 P1 P2 Rd ND CF) as (new & inR & inS & -> & HP). exists new. split; [done|]. split.
  - intros i. rewrite HP. apply (commonPositions_of R S ND).
  - intros NS. rewrite HP. by apply commonPositions_nodup.
Qed.

Lemma ecdh_out w S R pos : (0 < length R)%nat -> length S = length R -> N.of_nat (length R) < 2 ^ 44 ->
  (forall p, wSmul w (wSmul w p (wB w)) (wA w) = wSmul w (wSmul w p (wA w)) (wB w)) -> (forall z, z ∈ R -> wRoItem w (wHashSize w) z mod 2 ^ 128 = wRoItem w 16%nat z) ->
  (forall x y, x ∈ R ++ S -> y ∈ R ++ S ->
     dhBlock (wSmul w) (wPt w) id (wRoPoint w) (wRoItem w 16%nat x) (wA w) (wB w) mod 2 ^ 32 = dhBlock (wSmul w) (wPt w) id (wRoPoint w) (wRoItem w 16%nat y) (wA w) (wB w) mod 2 ^ 32 -> x = y) ->
  ecdhFiles w S R = Done pos -> positionsOf R S pos /\ NoDup pos.
Proof.
  intros H0 L B CM HA CF E. unfold ecdhFiles, ecdhInit in E.
  assert (pos = [] ++ commonIn R S) as ->.
  { refine (ecdh_C33_exact _ _ _ _ _ _ _ _ _ _ _ _ _ _ _ _ H0 L _ B _ CM HA CF E); [lia| |done].
    assert (2 ^ 44 < 2 ^ 64) by (apply N.pow_lt_mono_r; lia). lia. }
  split; [apply commonIn_of|apply commonIn_nodup].
Qed.
