(** Proofs about a balanced index that is filled a second time. *)
From Verif Require Import Base Balanced_Model Balanced_Spec Balanced_Proofs.

(** The entries of every bin are grouped by their other bin. *)
Definition grouped (bins : list bbin) : Prop := forall b B, bins !! b = Some B -> NoDup (keys (bVals B)).

Lemma grouped_insert bins b B : grouped bins -> NoDup (keys (bVals B)) -> grouped (<[b := B]> bins).
Proof.
  intros G H b' B' E. destruct (decide (b' = b)) as [->|].
  - assert (b < length bins)%nat by (apply lookup_lt_Some in E; by rewrite insert_length in E).
    rewrite list_lookup_insert in E by done. by injection E as <-.
  - rewrite list_lookup_insert_ne in E by done. by apply (G b').
Qed.

Lemma firstPass_keeps cands : forall idx bins bins', firstPass cands idx bins = Some bins' -> grouped bins ->
  grouped bins' /\ length bins' = length bins /\ map snd (stored bins') ≡ₚ map snd (stored bins) ++ seq idx (length cands).
Proof.
  induction cands as [|[b1 b2] cands IH]; intros idx bins bins' H G; cbn [firstPass] in H.
  { injection H as <-. split; [done|]. split; [done|]. cbn. by rewrite app_nil_r. }
  destruct (place bins b1 b2 idx) as [bins1|] eqn:E; [|done].
  assert (grouped bins1 /\ length bins1 = length bins /\ map snd (stored bins1) ≡ₚ idx :: map snd (stored bins)) as (G1 & L1 & S1).
  { unfold place in E. destruct (bins !! b1) as [B1|] eqn:E1; [|done]. destruct (bins !! b2) as [B2|] eqn:E2; [|done].
    destruct (bCnt B1 <? bCnt B2); injection E as <-; (split; [apply grouped_insert; [done|]; cbn [bVals]; apply addVal_nodup; by eapply G|]);
      (split; [by rewrite insert_length|]).
    - rewrite (stored_insert bins b1 B1 _ (0, idx) E1); [done|]. cbn [bVals]. apply addVal_items.
    - rewrite (stored_insert bins b2 B2 _ (1, idx) E2); [done|]. cbn [bVals]. apply addVal_items. }
  destruct (IH _ _ _ H G1) as (G2 & L2 & S2). split; [done|]. split; [lia|]. rewrite S2, S1. cbn [length seq].
  cbn. apply Permutation_middle.
Qed.

Lemma moveItem_keeps maxBin b1 b2 i2 j sub it bins heavy bins' heavy' B1 : moveItem maxBin b1 b2 i2 j sub it bins heavy = Some (bins', heavy') ->
  bins !! b1 = Some B1 -> b1 ≠ b2 -> findVal b2 (bVals B1) = Some sub -> sub !! j = Some it -> grouped bins ->
  grouped bins' /\ length bins' = length bins /\ stored bins' ≡ₚ stored bins.
Proof.
  intros H E1 Hne Hf Hj G. unfold moveItem in H. rewrite E1 in H. destruct (bins !! b2) as [B2|] eqn:E2; [|done]. cbv zeta in H.
  injection H as <- _. split; [|split; [by rewrite !insert_length|]].
  - apply grouped_insert; [apply grouped_insert; [done|]|]; cbn [bVals]; [rewrite setVal_keys; by eapply G|apply addVal_nodup; by eapply G].
  - match goal with |- stored (<[b2 := ?B2']> (<[b1 := ?B1']> bins)) ≡ₚ _ => set (B2x := B2'); set (B1x := B1') end.
    assert (<[b1:=B1x]> bins !! b2 = Some B2) as E2' by (by rewrite list_lookup_insert_ne).
    rewrite (stored_insert _ b2 B2 B2x it E2') by (cbn [bVals B2x]; apply addVal_items). symmetry.
    assert (<[b1 := B1]> (<[b1 := B1x]> bins) = bins) as Eb by (rewrite list_insert_insert; by apply list_insert_id). rewrite <- Eb at 1.
    apply (stored_insert _ b1 B1x B1 it); [apply list_lookup_insert; by eapply lookup_lt_Some|]. cbn [bVals B1x].
    apply (setVal_items b2 _ sub it _ Hf). by apply eraseAt_perm.
Qed.

Lemma balanceStep_keeps maxBin bins heavy rs bins' heavy' rs' : balanceStep maxBin bins heavy rs = Done (bins', heavy', rs') -> grouped bins ->
  grouped bins' /\ length bins' = length bins /\ stored bins' ≡ₚ stored bins.
Proof.
  intros H G. unfold balanceStep in H. destruct (draw (length heavy) rs) as [[h rs1]|]; [|done]. destruct (heavy !! h) as [b1|]; [|done].
  destruct (bins !! b1) as [B1|] eqn:E1; [|done].
  destruct (bLight B1) as [|x lt] eqn:El; [by injection H as <- _ _|]. rewrite <- El in H.
  destruct (draw (length (bLight B1)) rs1) as [[i2 rs2]|]; [|done]. destruct (bLight B1 !! i2) as [b2|]; [|done].
  destruct (bins !! b2) as [B2|] eqn:E2; [|done]. destruct (bCnt B2 <? bCnt B1) eqn:Ec; [|by injection H as <- _ _].
  destruct (draw 2 rs2) as [[rB rs3]|]; [|done]. destruct (_ || _); [|by injection H as <- _ _].
  destruct (findVal b2 (bVals B1)) as [sub|] eqn:Hsub; [|done]. destruct sub as [|y sub'] eqn:Es; [by injection H as <- _ _|].
  rewrite <- Es in *. destruct (draw (length sub) rs3) as [[j rs4]|]; [|done]. destruct (sub !! j) as [it|] eqn:Hit; [|done].
  destruct (moveItem maxBin b1 b2 i2 j sub it bins heavy) as [[bins1 heavy1]|] eqn:Em; [|done]. injection H as <- _ _.
  eapply moveItem_keeps; [exact Em|exact E1| |exact Hsub|exact Hit|done].
  intros ->. rewrite E1 in E2. injection E2 as ->. by rewrite N.ltb_irrefl in Ec.
Qed.
Lemma balance_keeps fuel : forall maxBin bins heavy rs bins', balance fuel maxBin bins heavy rs = Done bins' -> grouped bins ->
  grouped bins' /\ length bins' = length bins /\ stored bins' ≡ₚ stored bins.
Proof.
  induction fuel as [|f IH]; intros maxBin bins heavy rs bins' H G; cbn [balance] in H; (destruct heavy as [|h heavy]; [by injection H as <-|]); [done|].
  destruct (balanceStep maxBin bins (h :: heavy) rs) as [[[bins1 heavy1] rs1]|r| |] eqn:E; try done.
  destruct (balanceStep_keeps _ _ _ _ _ _ _ E G) as (G1 & L1 & S1). destruct (IH _ _ _ _ _ H G1) as (G2 & L2 & S2).
  split; [done|]. split; [lia|]. by rewrite S2.
Qed.
Lemma insertBins_keeps ord maxBin cands rs bins bins' : insertBins ord maxBin cands rs bins = Done bins' -> grouped bins ->
  grouped bins' /\ length bins' = length bins /\ map snd (stored bins') ≡ₚ map snd (stored bins) ++ seq 0 (length cands).
Proof.
  intros H G. unfold insertBins in H. destruct (firstPass cands 0 bins) as [bins1|] eqn:E; [|done].
  destruct (firstPass_keeps _ _ _ _ E G) as (G1 & L1 & S1).
  assert (grouped (scanLight ord maxBin bins1)) as G2.
  { intros b B' HB'. apply scanLight_lookup in HB' as (B & HB & ->). cbn [bVals]. by eapply G1. }
  destruct (balance_keeps _ _ _ _ _ _ H G2) as (G3 & L3 & S3). split; [done|]. split.
  { rewrite L3. unfold scanLight. rewrite imap_length. lia. }
  rewrite (Permutation_map snd S3), scanLight_stored. exact S1.
Qed.

Lemma out_grouped ord bins : anyOrder ord -> grouped bins -> concat (imap (binOut ord) bins) ≡ₚ stored bins.
Proof.
  intros HO G. unfold stored. apply concat_perm. apply Forall2_same_length_lookup. split; [by rewrite imap_length, map_length|].
  intros b x y Hx Hy. rewrite list_lookup_imap in Hx. change (map ?f ?l) with (f <$> l) in Hy. rewrite list_lookup_fmap in Hy.
  destruct (bins !! b) as [B|] eqn:E; [|done]. cbn in Hx, Hy. injection Hx as <-. injection Hy as <-. apply binOut_perm; [done|]. by eapply G.
Qed.

Lemma concat_zip_app {A} (l1 l2 : list (list A)) : concat (imap (fun b y => default [] (l1 !! b) ++ y) l2) ≡ₚ concat (take (length l2) l1) ++ concat l2.
Proof.
  revert l1. induction l2 as [|y l2 IH]; intros l1; [by rewrite take_0|]. rewrite imap_cons. cbn [concat].
  destruct l1 as [|x l1].
  - assert (imap ((λ (b : nat) (y : list A), default [] ([] !! b) ++ y) ∘ S) l2 = imap (λ (b : nat) (y : list A), default [] ([] !! b) ++ y) l2) as ->
      by (apply imap_ext; intros; done). rewrite (IH []), !take_nil. done.
  - cbn [length take concat]. change ((x :: l1) !! 0%nat) with (Some x). cbn [default]. specialize (IH l1).
    assert (imap ((λ (b : nat) (y : list A), default [] ((x :: l1) !! b) ++ y) ∘ S) l2 = imap (λ (b : nat) (y : list A), default [] (l1 !! b) ++ y) l2) as ->
      by (apply imap_ext; intros; done). cbn [default]. rewrite IH. rewrite <- !app_assoc. apply Permutation_app_head.
    rewrite !app_assoc. apply Permutation_app_tail. apply Permutation_app_comm.
Qed.

Lemma twice_ok ord enc maxBin dummies items1 items2 rs1 rs2 out : anyOrder ord -> dummies < maxBin -> maxBin < two64 ->
  (length items1 <= length items2)%nat ->
  balancedTwice ord enc maxBin dummies items1 items2 rs1 rs2 = Done out ->
  map snd (concat out) ≡ₚ seq 0 (length items1) ++ seq 0 (length items1) ++ seq 0 (length items2).
Proof.
  intros HO H1 H2 Hl H. unfold balancedTwice in H. rewrite !(numBinsOf_eq _ _ _ H1 H2) in H.
  set (m1 := binCount (N.of_nat (length items1)) maxBin dummies) in *. set (m2 := binCount (N.of_nat (length items2)) maxBin dummies) in *.
  assert (m1 <= m2) as Hm.
  { subst m1 m2. unfold binCount. pose proof (N.div_le_mono (N.of_nat (length items1)) (N.of_nat (length items2)) (maxBin - dummies) ltac:(lia) ltac:(lia)). lia. }
  clearbody m1 m2.
  destruct (insertBins ord maxBin (map (binsOf enc m1) items1) rs1 (newBins (N.to_nat m1))) as [bins1|?| |] eqn:E1; try done.
  assert (forall m, grouped (newBins m)) as Gn.
  { intros m b B HB. apply lookup_replicate in HB as [-> _]. apply NoDup_nil_2. }
  destruct (insertBins_keeps _ _ _ _ _ _ E1 (Gn _)) as (G1 & L1 & S1). rewrite newBins_stored, map_length in S1. cbn [map app] in S1.
  unfold newBins in L1. rewrite replicate_length in L1.
  destruct (insertBins ord maxBin (map (binsOf enc m2) items2) rs2 (resizeBins (N.to_nat m2) bins1)) as [bins2|?| |] eqn:E2; try done.
  injection H as <-.
  assert (resizeBins (N.to_nat m2) bins1 = bins1 ++ newBins (N.to_nat m2 - length bins1)) as Er.
  { unfold resizeBins. rewrite take_ge by lia. done. }
  assert (grouped (resizeBins (N.to_nat m2) bins1)) as Gr.
  { rewrite Er. intros b B HB. apply lookup_app_Some in HB as [HB|[_ HB]]; [by eapply G1|by eapply Gn]. }
  destruct (insertBins_keeps _ _ _ _ _ _ E2 Gr) as (G2 & L2 & S2). rewrite map_length in S2.
  assert (stored (resizeBins (N.to_nat m2) bins1) = stored bins1) as Es.
  { rewrite Er. unfold stored. rewrite map_app, concat_app. fold (stored (newBins (N.to_nat m2 - length bins1))).
    rewrite newBins_stored. by rewrite app_nil_r. }
  rewrite Es in S2.
  assert (imap (fun b B => default [] (binOut ord b <$> bins1 !! b) ++ binOut ord b B) bins2
    = imap (fun b y => default [] (imap (binOut ord) bins1 !! b) ++ y) (imap (binOut ord) bins2)) as ->.
  { apply list_eq. intros b. rewrite !list_lookup_imap. destruct (bins2 !! b) as [B|]; done. }
  rewrite concat_zip_app, imap_length, take_ge.
  - rewrite (out_grouped ord bins1 HO G1), (out_grouped ord bins2 HO G2), map_app, S2, S1, S1. done.
  - rewrite imap_length, L2, Er, app_length. lia.
Qed.
