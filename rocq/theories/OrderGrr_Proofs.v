(** GRR18: the place of a common item's rows shows how many items the sender has in the bins before. *)
From Verif Require Import Base Partition_Model Partition_Proofs Rr17_Model Rr17_Proofs Rr17a_Model Rr17a_Spec Rr17a_Proofs Grr18_Model Grr18_Spec Grr18_Proofs Order_Spec OrderGrr_Spec.

Section Blocks.
  Context {A : Type} (f : nat -> list A).
  Definition blocksBelow (b : nat) : nat := list_sum (map (fun k => length (f k)) (seq 0 b)).
  Lemma blocks_length n : length (concat (map f (seq 0 n))) = blocksBelow n.
  Proof. unfold blocksBelow. induction n as [|n IH]; [done|]. rewrite seq_S, !map_app, concat_app, app_length, list_sum_app, IH. cbn. rewrite app_nil_r. lia. Qed.
  Lemma blocks_S b : blocksBelow (S b) = (blocksBelow b + length (f b))%nat.
  Proof. unfold blocksBelow. rewrite seq_S, map_app, list_sum_app. cbn. lia. Qed.
  Lemma blocks_lookup n p m : concat (map f (seq 0 n)) !! p = Some m -> exists b q, (b < n)%nat /\ f b !! q = Some m /\ p = (blocksBelow b + q)%nat.
  Proof.
    induction n as [|n IH]; [done|]. rewrite seq_S, map_app, concat_app. cbn. rewrite app_nil_r. intros H. apply lookup_app_Some in H as [H|[H1 H2]].
    - destruct (IH H) as (b & q & Hb & E & Ep). exists b, q. split; [lia|done].
    - rewrite blocks_length in *. exists n, (p - blocksBelow n)%nat. split; [lia|]. split; [done|lia].
  Qed.
  Lemma blocks_at n b q m : (b < n)%nat -> f b !! q = Some m -> concat (map f (seq 0 n)) !! (blocksBelow b + q)%nat = Some m.
  Proof.
    induction n as [|n IH]; intros Hb E; [lia|]. rewrite seq_S, map_app, concat_app. cbn. rewrite app_nil_r. destruct (decide (b < n)%nat) as [H|H].
    - apply lookup_app_l_Some. by apply IH.
    - replace b with n in * by lia. rewrite lookup_app_r; rewrite blocks_length; [|lia]. by replace (blocksBelow n + q - blocksBelow n)%nat with q by lia.
  Qed.
End Blocks.

Lemma withBase_map loads t : forall n s a, withBase loads t a (seq s n) = map (fun b => (t, b, (a + otsBefore loads s b)%nat)) (seq s n).
Proof.
  induction n as [|n IH]; intros s a; [done|]. cbn [seq withBase map]. f_equal.
  - f_equal. unfold otsBefore. rewrite Nat.sub_diag. cbn. lia.
  - rewrite IH. apply map_ext_in. intros b Hb%in_seq. rewrite (otsBefore_S loads s b) by lia. f_equal. lia.
Qed.

Section Grr.
  Context (P : params) (lR lS : list nat) (rd : grrRand) (S : list N).
  Hypothesis (HP : paramsOk P S) (HT1 : pT P = 1%nat) (HLS : loadsOk P S lS) (HD : grrRandOk P lR lS rd).

  (** The rows of a bin. *)
  Lemma sent_bins : exists (f : nat -> list N), sentG P rd lR lS S = Some (concat (map f (seq 0 (pNb P)))) /\
    forall b, (b < pNb P)%nat -> length (f b) = (load P S b * ld lR b)%nat /\
      (forall m, m ∈ f b -> exists y, y ∈ S /\ itemBin P y = b /\ rowOf P lR lS y m) /\
      (forall y, y ∈ S -> itemBin P y = b -> (0 < ld lR b)%nat -> exists m, m ∈ f b /\ rowOf P lR lS y m).
  Proof using HP HT1 HLS HD.
    pose proof HP as (Hn & Hnb & Hcap & HT & HM & Hw & HL & HC). destruct HD as (_ & D2 & _ & D4 & _ & D6 & _).
    destruct (mkBins_ok P S _ HP D4) as (bins & EB & OB).
    destruct (party_masksL P S bins (pEncS P) (map (nco P) S) (gShufS rd) lS HP OB) as (asS & EaS & MS).
    { intros b Hb. destruct HLS as [L K]. pose proof (ld_lookup lS b ltac:(lia)) as E. split; [by apply D2|]. by apply (K b). }
    unfold sentG. rewrite EB, EaS. cbv zeta. set (masks := threadMasks (pEncS P) (map (nco P) S) asS (replicate (pN P) 0)) in *.
    assert (gThr rd = [0%nat]) as ->. { rewrite HT1 in D6. by apply Permutation_singleton_r in D6. }
    cbn [map concat]. rewrite app_nil_r. unfold grrRows, placesL.
    assert (idxRange (pNb P) (pT P) 0 = seq 0 (pNb P)) as ->.
    { rewrite (idxRange_firstBin P HT Hw 0) by lia. unfold firstBin. rewrite HT1, !Nat.div_1_r. rewrite Nat.mul_0_r, Nat.sub_0_r. by rewrite Nat.mul_1_r. }
    rewrite withBase_map, map_map. eexists. split; [reflexivity|]. intros b Hb. cbn beta iota.
    destruct (binsOk_elem P S bins b 0 OB Hb) as (bin & Eb & _). rewrite Eb. cbn [default]. unfold id. pose proof (bin_load P S bins b bin OB Eb) as Lb.
    assert (forall y, itemBin P y = b -> inThr P 0 (itemBin P y)) as HI.
    { intros y Ey. split; [lia|]. unfold firstBin. rewrite HT1, !Nat.div_1_r. lia. }
    assert (forall i, i ∈ bin -> exists y, S !! i = Some y /\ itemBin P y = b) as Hin.
    { intros i Hi. destruct (binsOk_elem P S bins b i OB Hb) as (bin' & Eb' & _ & K). rewrite Eb in Eb'. injection Eb' as <-. by apply K. }
    assert (forall i y, S !! i = Some y -> itemBin P y = b -> exists s, (s < ld lS b)%nat /\
      map (fun m => m mod 2 ^ (8 * pMask P)) (itemMasks (pEncR P) (ld lR b) (map (nco P) S) masks 0 (0 + otsBefore lR 0 b) i) =
      map (fun l => fullG P lR lS 0 l s y mod 2 ^ (8 * pMask P)) (seq 0 (ld lR b))) as Hrow.
    { intros i y Ey Hy. destruct (MS 0%nat i y (HI y Hy) Ey) as (s & Hs & Es). rewrite Hy in Hs. exists s. split; [done|]. unfold itemMasks. rewrite map_map. apply map_ext. intros l.
      rewrite Es, (list_lookup_fmap (nco P)), Ey. cbn [fmap option_fmap option_map default]. unfold id, fullG. rewrite Hy. unfold firstBin. rewrite Nat.mul_0_r, HT1, Nat.div_1_r. done. }
    split; [|split].
    - rewrite <- Lb. clear -Hin Hrow. induction bin as [|i bin IH]; [done|]. cbn [map concat length]. rewrite app_length, IH by (intros j Hj; apply Hin; by right).
      rewrite map_length. unfold itemMasks. rewrite map_length, seq_length. lia.
    - intros m Hm. apply elem_of_concat in Hm as (l & Hm & Hl). apply elem_of_list_fmap in Hl as (i & -> & Hi). destruct (Hin i Hi) as (y & Ey & Hy).
      destruct (Hrow i y Ey Hy) as (s & Hs & E). rewrite E in Hm. apply elem_of_list_fmap in Hm as (l & -> & Hl). apply elem_of_seq in Hl.
      exists y. split; [by eapply elem_of_list_lookup_2|]. split; [done|]. eexists. split; [|reflexivity]. apply grr_in; [done|done|by apply HI|rewrite Hy; lia|by rewrite Hy].
    - intros y Hy Ey Hl. apply elem_of_list_lookup in Hy as [i Hi]. destruct (Hrow i y Hi Ey) as (s & Hs & E).
      assert (i ∈ bin) as Hib. { destruct (binsOk_elem P S bins b i OB Hb) as (bin' & Eb' & _ & K). rewrite Eb in Eb'. injection Eb' as <-. apply K. eauto. }
      exists (fullG P lR lS 0 0 s y mod 2 ^ (8 * pMask P)). split.
      + apply elem_of_concat. eexists. split; [|apply elem_of_list_fmap; exists i; split; [reflexivity|done]]. rewrite E. apply elem_of_list_fmap. exists 0%nat. split; [done|apply elem_of_seq; lia].
      + eexists. split; [|reflexivity]. apply grr_in; [done|done|by apply HI|by rewrite Ey|by rewrite Ey].
  Qed.

  Lemma grr_places R : noSharedRow P lR lS R S -> exists rows, sentG P rd lR lS S = Some rows /\ length rows = rowsBelow P lR S (pNb P) /\
    (forall p m x, rows !! p = Some m -> x ∈ R -> rowOf P lR lS x m ->
      x ∈ S /\ (rowsBelow P lR S (itemBin P x) <= p < rowsBelow P lR S (itemBin P x + 1))%nat) /\
    (forall x, x ∈ R -> x ∈ S -> (0 < default 0%nat (lR !! itemBin P x))%nat -> exists p m, rows !! p = Some m /\ rowOf P lR lS x m).
  Proof using HP HT1 HLS HD.
    intros HN. destruct sent_bins as (f & E & Hf). eexists. split; [exact E|].
    assert (forall b, (b <= pNb P)%nat -> blocksBelow f b = rowsBelow P lR S b) as HB.
    { intros b Hb. unfold blocksBelow, rowsBelow. f_equal. apply map_ext_in. intros k Hk%in_seq. by apply Hf; lia. }
    split; [rewrite blocks_length; by apply HB|]. split.
    - intros p m x Hp Hx Hm. apply blocks_lookup in Hp as (b & q & Hb & Eq & ->). destruct (Hf b Hb) as (Lf & Hin & _).
      destruct (Hin m) as (y & Hy & Ey & My); [by eapply elem_of_list_lookup_2|]. rewrite (HN x y m Hx Hy Hm My). split; [done|]. rewrite Ey.
      rewrite <- !HB by lia. rewrite Nat.add_1_r, blocks_S. apply lookup_lt_Some in Eq. lia.
    - intros x Hx Hs Hl. pose proof HP as (_ & Hnb & _). pose proof (itemBin_lt P x Hnb) as Hb. destruct (Hf (itemBin P x) Hb) as (_ & _ & Hex).
      destruct (Hex x Hs eq_refl Hl) as (m & Hm & Mm). apply elem_of_list_lookup in Hm as [q Hq]. exists (blocksBelow f (itemBin P x) + q)%nat, m. split; [|done].
      by apply blocks_at.
  Qed.
End Grr.
