(** RR17b: the rows of two sets of the sender with the same common items differ by renamed encodings and commitments. *)
From stdpp Require Import sets.
From Verif Require Import Base Bgi_Proofs Tools_Spec Partition_Model Partition_Proofs File_Model File_Spec File_Proofs Dcw_Spec Dcw_Proofs Ecdh_Proofs Rr17_Model Rr17_Proofs.
From Verif Require Rr17a_Model Rr17a_Spec Rr17a_Proofs RevealRr17_Proofs.
From Verif Require Import Rr17b_Model Rr17b_Spec Rr17b_Proofs Order_Spec Order_Proofs OrderRr17_Spec OrderRr17b_Proofs Reveal_Spec Reveal_Proofs RevealRr17b_Spec.

Local Arguments bytesLE : simpl never.
Local Arguments setSize : simpl never.
Local Arguments otInput : simpl never.
Local Arguments itemBin : simpl never.

Lemma sendPlaces_disjoint cap nb T t b b' base base' i : (t, b, base) ∈ sendPlaces cap nb T -> (t, b', base') ∈ sendPlaces cap nb T ->
  (base <= i < base + cap)%nat -> (base' <= i < base' + cap)%nat -> b = b'.
Proof.
  intros H H' B B'.
  assert (forall t b base, (t, b, base) ∈ sendPlaces cap nb T -> exists k, sendPlacesOf cap nb T t !! k = Some (t, b, base) /\ base = (k * cap)%nat) as G.
  { intros t0 b0 base0 Hp. unfold sendPlaces in Hp. apply elem_of_concat in Hp as (l & Hl & Hp). apply elem_of_list_fmap in Hp as (t' & -> & _).
    pose proof (sendPlacesOf_fst _ _ _ _ _ Hl) as E. cbn in E. subst t'. apply elem_of_list_lookup in Hl as (k & Hk). exists k. split; [done|].
    unfold sendPlacesOf in Hk. destruct (ceilSplit _ _ _) as [s e]. rewrite list_lookup_imap in Hk. destruct (_ !! k) as [b1|]; [|done]. cbn in Hk. by injection Hk as _ <-. }
  destruct (G _ _ _ H) as (k & Hk & ->), (G _ _ _ H') as (k' & Hk' & ->).
  assert (k = k') as <- by nia. rewrite Hk in Hk'. by injection Hk'.
Qed.

Lemma withFns_ok P w c S : paramsOk P S -> sizesOk w c -> paramsOk (withFns P w c) S.
Proof.
  intros (H1 & H2 & H3 & H4 & H5 & H6 & H7 & H8 & H9 & _) [W1 W2]. unfold paramsOk. cbn [withFns pN pNb pCap pT pMask pEnc pCom]. split_and!; try done; intros; apply W1.
Qed.

Lemma rr17b_reveals P K R S S' : sameCommon R S S' -> paramsOk P S -> paramsOk P S' -> distinctInputs P S -> distinctInputs P S' -> choosesOwn P K R (S ++ S') ->
  exists h s u, relabels (pN P) h /\ renaming s /\ (forall a, a ∈ K -> s a = a) /\ renaming u /\ (forall x, x ∈ R -> u x = x) /\
    forall rd rd' w c, randOk P rd -> randOk P rd' -> sizesOk w c ->
      (forall j, (j < pN P)%nat -> rPerm rd' !! h j = rPerm rd !! j /\ rDec rd' (h j) = rDec rd j) ->
      exists rows, sentB (withFns P w c) rd S = Some rows /\ sentB (withFns P (fun a => w (s a)) (fun x => c (u x))) rd' S' = Some rows.
Proof.
  intros Hc HS HS' HI HI' HK. pose proof HS as (Hn & Hnb & Hcap & HT & HM & Hw & _ & L & _). pose proof HS' as (_ & _ & _ & _ & _ & _ & _ & L' & _).
  pose proof Hc as (DS & DS' & _ & _). destruct (match_positions R S S' Hc) as (h & Rh & Hh). rewrite L in Rh.
  assert (forall k, (k < pN P)%nat -> (h k < pN P)%nat) as Hhlt. { intros k Hk. destruct Rh as (h' & Rh). by apply Rh. }
  assert (forall k k', (k < pN P)%nat -> (k' < pN P)%nat -> h k = h k' -> k = k') as Hhinj.
  { intros k k' Hk Hk' E. destruct Rh as (h' & Rh). destruct (Rh k Hk) as (_ & _ & I1 & _), (Rh k' Hk') as (_ & _ & I2 & _). congruence. }
  assert (forall k, (k < pN P)%nat -> exists y y', S !! k = Some y /\ y ∈ S /\ S' !! h k = Some y' /\ y' ∈ S' /\ (y = y' \/ (y ∉ R /\ y' ∉ R))) as Get.
  { intros k Hk. destruct (lookup_lt_is_Some_2 S k ltac:(lia)) as [y Hy]. destruct (Hh k y Hy) as (y' & Hy' & Hcase). exists y, y'. split; [done|]. split; [by eapply elem_of_list_lookup_2|].
    split; [done|]. split; [by eapply elem_of_list_lookup_2|done]. }
  set (place := fun b => match list_find (fun pl : nat * nat * nat => pl.1.2 = b) (sendPlaces (pCap P) (pNb P) (pT P)) with Some (_, (t, _, base)) => (t, base) | None => (O, O) end).
  assert (forall y, ((place (itemBin P y)).1, itemBin P y, (place (itemBin P y)).2) ∈ sendPlaces (pCap P) (pNb P) (pT P)) as Hplace.
  { intros y. assert (itemBin P y < pNb P)%nat as Hb by (by apply binOf_lt). unfold place. destruct (list_find _ _) as [[k [[t b'] base]]|] eqn:E.
    - apply list_find_Some in E as (Ek & E & _). cbn in E. subst b'. by eapply elem_of_list_lookup_2.
    - apply list_find_None in E. rewrite Forall_forall in E. assert (itemBin P y ∈ map (fun p : nat * nat * nat => p.1.2) (sendPlaces (pCap P) (pNb P) (pT P))) as H.
      { rewrite sendPlaces_bins by done. apply elem_of_seq. lia. }
      apply elem_of_list_fmap in H as (pl & Epl & H). by destruct (E _ H). }
  set (point := fun (y : N) (l : nat) => ((place (itemBin P y)).1, ((place (itemBin P y)).2 + l)%nat, otInput P y)).
  assert (forall y y' l l', (l < pCap P)%nat -> (l' < pCap P)%nat -> point y l = point y' l' -> itemBin P y = itemBin P y' /\ otInput P y = otInput P y' /\ l = l') as Hpoint.
  { intros y y' l l' Hl Hl' E. unfold point in E. injection E as E1 E2 E3. pose proof (Hplace y) as G1. pose proof (Hplace y') as G2.
    rewrite <- E1 in G2. assert (itemBin P y = itemBin P y') as Eb by (apply (sendPlaces_disjoint _ _ _ _ _ _ _ _ ((place (itemBin P y)).2 + l)%nat G1 G2); lia).
    split; [done|]. split; [done|]. rewrite Eb in E2. lia. }
  set (srcA := fun kl : nat * nat => point (default 0 (S !! kl.1)) kl.2). set (srcB := fun kl : nat * nat => point (default 0 (S' !! h kl.1)) kl.2).
  set (pl := list_prod (seq 0 (pN P)) (seq 0 (pCap P))).
  assert (forall kl, kl ∈ pl <-> (kl.1 < pN P)%nat /\ (kl.2 < pCap P)%nat) as Hpl2.
  { intros [k l]. unfold pl. rewrite elem_of_list_In, in_prod_iff, <- !elem_of_list_In, !elem_of_seq. cbn. lia. }
  assert (NoDup pl) as Dpl by (apply RevealRr17_Proofs.NoDup_pairs; apply NoDup_seq).
  destruct (rename_places pl srcA srcB (fun a => a ∈ K) Dpl) as (s & Rs & Hs & Hfix).
  { intros [k l] [k' l'] [Hk Hl]%Hpl2 [Hk' Hl']%Hpl2 E. cbn [fst snd] in *. unfold srcA in E. cbn [fst snd] in E. destruct (Get k Hk) as (y & _ & Ey & Sy & _), (Get k' Hk') as (y' & _ & Ey' & Sy' & _).
    rewrite Ey, Ey' in E. cbn [default] in E. unfold id in E. apply Hpoint in E as (E1 & E2 & ->); [|done|done]. assert (y = y') as <- by (by apply HI). f_equal. by apply (NoDup_lookup S k k' y). }
  { intros [k l] [k' l'] [Hk Hl]%Hpl2 [Hk' Hl']%Hpl2 E. cbn [fst snd] in *. unfold srcB in E. cbn [fst snd] in E. destruct (Get k Hk) as (_ & y & _ & _ & Ey & Sy & _), (Get k' Hk') as (_ & y' & _ & _ & Ey' & Sy' & _).
    rewrite Ey, Ey' in E. cbn [default] in E. unfold id in E. apply Hpoint in E as (E1 & E2 & ->); [|done|done]. assert (y = y') as <- by (by apply HI'). f_equal.
    apply Hhinj; [done|done|]. by apply (NoDup_lookup S' (h k) (h k') y). }
  { intros [k l] [Hk Hl]%Hpl2 HF. cbn [fst snd] in *. unfold srcA, srcB in *. cbn [fst snd] in *. destruct (Get k Hk) as (y & y' & Ey & Sy & Ey' & Sy' & Hcase). rewrite Ey, Ey' in *. cbn [default] in *. unfold id in *.
    destruct Hcase as [<-|[N1 N2]]; [done|]. exfalso. assert (forall z, z ∈ S ++ S' -> point z l ∈ K -> z ∈ R) as HKR.
    { intros z Hz Hin. apply (HK _ _ z Hin Hz). exists (place (itemBin P z)).2. split; [apply Hplace|lia]. }
    destruct HF as [HF|HF]; apply HKR in HF; try done; apply elem_of_app; [by left|by right]. }
  destruct (rename_places (seq 0 (pN P)) (fun k => default 0 (S !! k)) (fun k => default 0 (S' !! h k)) (fun x => x ∈ R) (NoDup_seq _ _)) as (u & Ru & Hu & Hufix).
  { intros k k' Hk%elem_of_seq Hk'%elem_of_seq E. destruct (Get k ltac:(lia)) as (y & _ & Ey & _), (Get k' ltac:(lia)) as (y' & _ & Ey' & _). rewrite Ey, Ey' in E. cbn in E. subst y'. by apply (NoDup_lookup S k k' y). }
  { intros k k' Hk%elem_of_seq Hk'%elem_of_seq E. destruct (Get k ltac:(lia)) as (_ & y & _ & _ & Ey & _), (Get k' ltac:(lia)) as (_ & y' & _ & _ & Ey' & _). rewrite Ey, Ey' in E. cbn in E. subst y'.
    apply Hhinj; [lia|lia|]. by apply (NoDup_lookup S' (h k) (h k') y). }
  { intros k Hk%elem_of_seq HF. destruct (Get k ltac:(lia)) as (y & y' & Ey & _ & Ey' & _ & Hcase). rewrite Ey, Ey' in *. cbn in *. unfold id in *. destruct Hcase as [<-|[N1 N2]]; [done|]. by destruct HF. }
  exists h, s, u. split; [done|]. split; [done|]. split; [done|]. split; [done|]. split; [done|]. intros rd rd' w c HD HD' HW Hperm.
  assert (sizesOk (fun a => w (s a)) (fun x => c (u x))) as HW' by (destruct HW as [W1 W2]; split; [intros a; apply W1|intros x r; apply W2]).
  destruct (sent_rows (withFns P w c) rd S (withFns_ok P w c S HS HW) HD) as (rows & E & Lr & A).
  destruct (sent_rows (withFns P (fun a => w (s a)) (fun x => c (u x))) rd' S' (withFns_ok P _ _ S' HS' HW') HD') as (rows' & E' & Lr' & A').
  change (pN (withFns P _ _)) with (pN P) in Lr, Lr'. exists rows. split; [done|]. rewrite E'. f_equal. apply (list_eq_same_length _ _ (pN P)); [done|done|]. intros p r r' Hp Hr Hr'.
  assert (p ∈ rPerm rd) as Hpin by (rewrite (proj1 HD); apply elem_of_seq; lia). apply elem_of_list_lookup in Hpin as (k & Hk).
  assert (k < pN P)%nat as Hkn by (apply lookup_lt_Some in Hk; by rewrite (proj1 HD), seq_length in Hk).
  destruct (Get k Hkn) as (y & y' & Ey & Sy & Ey' & Sy' & _). destruct (Hperm k Hkn) as [H1 H2].
  destruct (A k y p Ey Hk) as (t & base & Hpl & Er). destruct (A' (h k) y' p Ey' ltac:(by rewrite H1)) as (t' & base' & Hpl' & Er').
  change (itemBin (withFns P _ _)) with (itemBin P) in Hpl, Hpl'. cbn [withFns pCap pNb pT] in Hpl, Hpl'.
  pose proof (sendPlaces_unique _ _ _ _ _ HT Hw Hpl (Hplace y) eq_refl) as EE. injection EE as -> ->. pose proof (sendPlaces_unique _ _ _ _ _ HT Hw Hpl' (Hplace y') eq_refl) as EE. injection EE as -> ->.
  rewrite Hr' in Er. rewrite Hr in Er'. injection Er as ->. injection Er' as ->. unfold itemRow. rewrite Ey, Ey'. cbn [default withFns pCom pEnc pCap]. unfold id. change (otInput (withFns P _ _)) with (otInput P). rewrite H2. f_equal.
  - pose proof (Hu k ltac:(apply elem_of_seq; lia)) as Hu1. cbn beta in Hu1. rewrite Ey, Ey' in Hu1. cbn in Hu1. unfold id in Hu1. by rewrite Hu1.
  - f_equal. apply map_ext_in. intros l Hl%elem_of_list_In%elem_of_seq. assert ((k, l) ∈ pl) as Hkl by (apply Hpl2; cbn; lia).
    pose proof (Hs _ Hkl) as Hs1. unfold srcA, srcB in Hs1. cbn [fst snd] in Hs1. rewrite Ey, Ey' in Hs1. cbn [default] in Hs1. unfold id in Hs1. unfold point in Hs1. by rewrite Hs1.
Qed.

(** ** The receiver *)

Section recv.
  Context (P : params) (rd : rand) (R : list N) (HR : paramsOk P R) (HD : randOk P rd).

  Lemma assign_ok bins asg t a j s : mkBins P R (rOrdR rd) = Some bins ->
    mapM (fun t => recvAssign (pCap P) (rDraw rd) bins (placesOf (pCap P) (pNb P) (pT P) t) (seq 0 (pCap P))) (seq 0 (pT P)) = Some asg ->
    asg !! t = Some a -> (j, s) ∈ a -> exists z base, (t < pT P)%nat /\ R !! j = Some z /\ (t, itemBin P z, base) ∈ places (pCap P) (pNb P) (pT P) /\ (base <= s < base + pCap P)%nat.
  Proof using HR HD.
    intros EB EA Ha Hin. pose proof HR as (Hn & Hnb & Hcap & HT & HM & Hw & Hw2 & HL & HC & _). pose proof HD as (D1 & D2 & D3 & _). pose proof (toA_ok P R HR) as AR.
    assert (N.of_nat (pNb P) * N.of_nat (pT P) < 2 ^ 64) as Hw1 by nia.
    destruct (Rr17a_Proofs.mkBins_ok (toA P) R _ AR D3) as (bins2 & EB2 & OB). change (Rr17a_Model.mkBins (toA P) R (rOrdR rd)) with (mkBins P R (rOrdR rd)) in EB2. rewrite EB in EB2. injection EB2 as <-.
    assert (forall t b base, (t < pT P)%nat -> (t, b, base) ∈ placesOf (pCap P) (pNb P) (pT P) t -> (t, b, base) ∈ places (pCap P) (pNb P) (pT P) /\ (b < pNb P)%nat /\ exists bin, bins !! b = Some bin /\ (length bin <= pCap P)%nat) as BIN.
    { intros t0 b base Ht Hpl. assert ((t0, b, base) ∈ places (pCap P) (pNb P) (pT P)) as Hpl2.
      { unfold places. apply elem_of_concat. eexists. split; [exact Hpl|]. apply elem_of_list_fmap. exists t0. split; [done|]. apply elem_of_seq. lia. }
      assert (b < pNb P)%nat as Hb.
      { assert (b ∈ seq 0 (pNb P)) as Hb; [|apply elem_of_seq in Hb; lia]. rewrite <- (places_bins (pCap P) (pNb P) (pT P) HT Hw1). apply elem_of_list_fmap. by exists (t0, b, base). }
      split; [done|]. split; [done|]. destruct (Rr17a_Proofs.binsOk_elem (toA P) R bins b 0 OB Hb) as (bin & E & _). exists bin. split; [done|]. by eapply (Rr17a_Proofs.binsOk_length (toA P)). }
    apply mapM_Some in EA. pose proof (Forall2_lookup_r _ _ _ _ _ EA Ha) as (t1 & Ht1 & Ea). apply lookup_seq in Ht1 as [-> Ht1]. cbn [Nat.add] in Ea.
    destruct (recvAssign_ok (pCap P) (rDraw rd) bins (placesOf (pCap P) (pNb P) (pT P) t) (seq 0 (pCap P))) as (parts & Ep & F); [done| |].
    { intros t' b base' H. pose proof (placesOf_fst _ _ _ _ _ H) as E0. cbn in E0. subst t'. by apply BIN in H as (_ & _ & H). }
    rewrite Ea in Ep. injection Ep as ->. apply elem_of_concat in Hin as (part & Hjs & Hpart). apply elem_of_list_lookup in Hpart as (k & Hk).
    destruct (Forall2_lookup_r _ _ _ _ _ F Hk) as ([[t' b] base'] & Hpl' & Hok). pose proof (elem_of_list_lookup_2 _ _ _ Hpl') as Hin'. pose proof (placesOf_fst _ _ _ _ _ Hin') as E0. cbn in E0. subst t'.
    destruct (BIN _ _ _ Ht1 Hin') as (Hplace & Hb & bin & Ebin & Lbin).
    destruct Hok as (bin2 & Ebin2 & Hp2 & Hp3 & Hp4). cbn [fst snd] in *. rewrite Ebin in Ebin2. injection Ebin2 as <-.
    assert (j ∈ bin) as Hj by (rewrite <- Hp2; apply elem_of_list_fmap; by exists (j, s)). assert (base' <= s < base' + pCap P)%nat as Hs by (apply Hp4, elem_of_list_fmap; by exists (j, s)).
    destruct (Rr17a_Proofs.binsOk_elem (toA P) R bins b j OB Hb) as (bin3 & E3 & _ & HI0). rewrite Ebin in E3. injection E3 as <-. apply HI0 in Hj as (z & Hz & Ez).
    exists z, base'. change (Rr17a_Model.itemBin (toA P) z) with (itemBin P z) in Ez. by rewrite Ez.
  Qed.

  Lemma honest_choices l K : (forall t, (t < pT P)%nat -> correctionsFit (pCap P) (pNb P) (pT P) t = true) -> distinctInputs P (R ++ l) -> choices P rd R = Some K -> choosesOwn P K R l.
  Proof using HR HD.
    intros Hfit HI EK. pose proof HR as (Hn & Hnb & Hcap & HT & HM & Hw & Hw2 & HL & HC & _). unfold choices in EK. destruct (mkBins P R (rOrdR rd)) as [bins|] eqn:EB; [|done]. destruct (mapM _ _) as [asg|] eqn:EA; [|done].
    injection EK as <-. intros t i x Hin Hx (base & Hpl & Hi). rewrite sendPlaces_fit in Hpl; [|done|done|].
    2:{ intros t0 Ht0. specialize (Hfit t0 Ht0). unfold correctionsFit in Hfit. apply Nat.eqb_eq in Hfit. done. }
    apply elem_of_concat in Hin as (part & Hin & Hp). apply elem_of_lookup_imap_1 in Hp as (t0 & a & -> & Ha).
    apply elem_of_list_fmap in Hin as ([j s] & E & Hin). injection E as -> -> E. cbn [fst snd] in E.
    destruct (assign_ok bins asg t0 a j s EB EA Ha Hin) as (z & base' & Ht & Hz & Hpl' & Hs). rewrite Hz in E. cbn in E. unfold id in E.
    assert (itemBin P x = itemBin P z) as Ebx by (by apply (RevealRr17_Proofs.places_disjoint (pCap P) (pNb P) (pT P) t0 _ _ base base' s)).
    rewrite (HI x z); [by eapply elem_of_list_lookup_2| | |done|done]; apply elem_of_app; [by right|left; by eapply elem_of_list_lookup_2].
  Qed.
End recv.

Lemma list_find_ext {A} (Q Q' : A -> Prop) `{!forall x, Decision (Q x)} `{!forall x, Decision (Q' x)} (l : list A) : (forall x, x ∈ l -> Q x <-> Q' x) -> list_find Q l = list_find Q' l.
Proof.
  induction l as [|x l IH]; intros HQ; [done|]. cbn [list_find]. destruct (decide (Q x)) as [q|q], (decide (Q' x)) as [q'|q'].
  - done.
  - exfalso. apply q'. apply HQ; [left|done].
  - exfalso. apply q. apply HQ; [left|done].
  - rewrite IH; [done|]. intros y Hy. apply HQ. by right.
Qed.
Lemma scanSlots_ext try try' msg left : (forall tag enc, try tag enc = try' tag enc) -> forall iter, scanSlots try msg left iter = scanSlots try' msg left iter.
Proof.
  intros H. induction left as [|left IH]; intros iter; [done|]. cbn [scanSlots]. destruct (getLe msg iter 4); [|done]. destruct (getLe msg (iter + 4) 16); [|done].
  destruct (_ <? _)%nat; [done|]. rewrite H. destruct (try' _ _); [done|]. apply IH.
Qed.
Lemma scanItems_ext try try' cap msg count : (forall comm tag enc, try comm tag enc = try' comm tag enc) -> forall iter, scanItems try cap msg count iter = scanItems try' cap msg count iter.
Proof.
  intros H. induction count as [|count IH]; intros iter; [done|]. cbn [scanItems]. destruct (getLe msg iter 20) as [comm|]; [|done]. rewrite (scanSlots_ext (try comm) (try' comm)) by (intros; apply H).
  destruct (scanSlots _ _ _ _) as [[iter' m]|r| |]; [|done..]. rewrite IH. done.
Qed.
Lemma scanMessages_ext try try' cap buf cs : (forall comm tag enc, try comm tag enc = try' comm tag enc) -> scanMessages try cap buf cs = scanMessages try' cap buf cs.
Proof.
  intros H. induction cs as [|c cs IH]; [done|]. cbn [scanMessages]. rewrite (scanItems_ext try try') by done. rewrite IH. done.
Qed.

(** What the receiver reports depends on its choices, the commitments to its items and the rows. *)
Lemma rr17b_output ss P rd rd' R S S' old K w w' c c' rows : paramsOk P R -> randOk P rd -> length S' = length S -> rDraw rd' = rDraw rd -> rOrdR rd' = rOrdR rd -> rSched rd' = rSched rd -> rTab rd' = rTab rd -> rOut rd' = rOut rd ->
  choices P rd R = Some K -> (forall a, a ∈ K -> w' a = w a) -> (forall x, x ∈ R -> c' x = c x) -> sentB (withFns P w c) rd S = Some rows -> sentB (withFns P w' c') rd' S' = Some rows ->
  rr17bRun ss (withFns P w' c') rd' R S' old = rr17bRun ss (withFns P w c) rd R S old.
Proof.
  intros HR HD HL E1 E2 E3 E4 E5 EK HK HC HA HA'. unfold rr17bRun. cbn [withFns pHash pRo pAes pN pNb pCap pMask pT pEnc pCom]. rewrite HL. destruct (_ || _); [done|]. destruct (16 <? pMask P); [done|].
  unfold sentB in HA, HA'. cbn [withFns pN pCap] in HA, HA'. change (mkBins (withFns P _ _)) with (mkBins P) in *. rewrite E1, E2, E3, E4, E5.
  unfold choices in EK. destruct (mkBins P R (rOrdR rd)) as [binsR|] eqn:EB; [|done]. destruct (mkBins P S (rOrdS rd)) as [binsS|]; [|done]. destruct (mkBins P S' (rOrdS rd')) as [binsS'|]; [|done].
  destruct (negb _); [done|]. destruct (mapM (fun t => recvAssign _ _ _ _ _) _) as [asR|] eqn:EA; [|done]. rewrite HA, HA'. cbv zeta.
  pose proof (fun t a j s => assign_ok P rd R HR HD binsR asR t a j s EB EA) as AS.
  assert (forall u, tagEntries (withFns P w' c') R (default [] (asR !! u)) u = tagEntries (withFns P w c) R (default [] (asR !! u)) u) as ET.
  { intros u. unfold tagEntries. apply map_ext_in. intros e He%elem_of_list_In. cbn [withFns pEnc]. change (otInput (withFns P _ _)) with (otInput P). rewrite HK; [done|].
    destruct (asR !! u) as [a|] eqn:Ea; [|by apply elem_of_nil in He]. injection EK as <-. apply elem_of_concat. eexists. split; [|apply elem_of_lookup_imap; eauto]. apply elem_of_list_fmap. by exists e. }
  assert (forall t, concat (map (fun u => tagEntries (withFns P w' c') R (default [] (asR !! u)) u) (seen t (rSched rd))) = concat (map (fun u => tagEntries (withFns P w c) R (default [] (asR !! u)) u) (seen t (rSched rd)))) as ET2.
  { intros t. f_equal. apply map_ext. intros u. apply ET. }
  assert (map (fun t => scanMessages (tryTag c' R (rTab rd t (concat (map (fun u => tagEntries (withFns P w' c') R (default [] (asR !! u)) u) (seen t (rSched rd)))))) (pCap P) (concat rows) (channelChunks ss (pN P) (pT P) t)) (rOut rd) =
    map (fun t => scanMessages (tryTag c R (rTab rd t (concat (map (fun u => tagEntries (withFns P w c) R (default [] (asR !! u)) u) (seen t (rSched rd)))))) (pCap P) (concat rows) (channelChunks ss (pN P) (pT P) t)) (rOut rd)) as ->; [|done].
  apply map_ext. intros t. rewrite ET2. apply scanMessages_ext. intros comm tag enc. unfold tryTag.
  rewrite (list_find_ext _ (fun e : N * (nat * N) => e.1 = tag /\ c (default 0 (R !! e.2.1)) (N.lxor e.2.2 enc) = comm)); [done|].
  intros e He. destruct HD as (_ & _ & _ & _ & _ & D6 & _). rewrite D6 in He. apply elem_of_concat in He as (l & He & Hl). apply elem_of_list_fmap in Hl as (u & -> & _). unfold tagEntries in He.
  apply elem_of_list_fmap in He as ([j s] & -> & He). cbn [fst snd]. destruct (asR !! u) as [a|] eqn:Ea; [|by apply elem_of_nil in He]. destruct (AS u a j s Ea He) as (z & _ & _ & Hz & _).
  rewrite Hz. cbn [default]. unfold id. rewrite HC; [done|by eapply elem_of_list_lookup_2].
Qed.
