(** RR17b: uniform places and decommitment values hide the order of the sender's items. *)
From stdpp Require Import sets.
From Verif Require Import Base Bgi_Proofs Tools_Spec Partition_Model Partition_Proofs File_Model File_Spec File_Proofs Dcw_Spec Dcw_Proofs Ecdh_Proofs Rr17_Model Rr17_Proofs.
From Verif Require Rr17a_Model Rr17a_Spec Rr17a_Proofs.
From Verif Require Import Rr17b_Model Rr17b_Spec Rr17b_Proofs Order_Spec Order_Proofs OrderRr17_Spec.

Local Arguments bytesLE : simpl never.
Local Arguments setSize : simpl never.

Lemma writeRows_at ws buf : NoDup ws.*1 -> (forall p, p ∈ ws.*1 -> (p < length buf)%nat) ->
  exists res, writeRows ws buf = Some res /\ length res = length buf /\ forall p r, (p, r) ∈ ws -> res !! p = Some r.
Proof.
  intros ND H. destruct (Rr17a_Proofs.placeRows_gen ws.*2 ws.*1 buf) as (res & E & L & _ & A); [by rewrite !fmap_length|done|done|].
  exists res. rewrite writeRows_place. split; [done|]. split; [done|]. intros p r (k & Hk)%elem_of_list_lookup.
  apply (A k); by rewrite list_lookup_fmap, Hk.
Qed.

Lemma sent_rows P rd S : paramsOk P S -> randOk P rd -> exists rows, sentB P rd S = Some rows /\ length rows = pN P /\
  forall j y p, S !! j = Some y -> rPerm rd !! j = Some p ->
    exists t base, (t, itemBin P y, base) ∈ sendPlaces (pCap P) (pNb P) (pT P) /\ rows !! p = Some (itemRow P (rDec rd) S t base j).
Proof.
  intros HS HD. pose proof HD as (D1 & D2 & D3 & D4 & D5 & D6 & D7 & _). pose proof (toA_ok P S HS) as AS.
  pose proof HS as (Hn & Hnb & Hcap & HT & HM & Hw & Hw2 & HLS & HCS & HE & HC).
  destruct (Rr17a_Proofs.mkBins_ok (toA P) S _ AS D4) as (bins & ES & OS).
  change (Rr17a_Model.mkBins (toA P) S (rOrdS rd)) with (mkBins P S (rOrdS rd)) in ES. unfold sentB. rewrite ES.
  set (js := concat (map (fun p : nat * nat * nat => default [] (bins !! p.1.2)) (rPlaces rd))).
  assert (js ≡ₚ seq 0 (pN P)) as HJ.
  { unfold js. rewrite <- HLS. apply (Rr17a_Proofs.binsOk_all (toA P) S bins); [done|done|]. rewrite (Permutation_map _ D5), sendPlaces_bins by done. done. }
  assert (length (rPerm rd) = pN P) as LP by (by rewrite D1, seq_length).
  assert ((sendWrites P rd S bins).*1 = map (fun j => default (pN P) (rPerm rd !! j)) js) as E1.
  { unfold sendWrites, js. change (?l.*1) with (map fst l). rewrite <- !concat_map_map, !map_map. f_equal. apply map_ext. intros [[t b] base]. by rewrite map_map. }
  assert ((sendWrites P rd S bins).*1 ≡ₚ seq 0 (pN P)) as P1.
  { rewrite E1, (Permutation_map _ HJ), <- LP, map_lookup_seq', LP. done. }
  destruct (writeRows_at (sendWrites P rd S bins) (replicate (pN P) (replicate (setSize (pCap P)) 0))) as (rows & E & L & A).
  { rewrite P1. apply NoDup_seq. }
  { intros p Hp. rewrite P1 in Hp. apply elem_of_seq in Hp. rewrite replicate_length. lia. }
  exists rows. split; [done|]. split; [by rewrite L, replicate_length|]. intros j y p Hj Hp.
  assert (itemBin P y < pNb P)%nat as Hb by (by apply binOf_lt).
  assert (itemBin P y ∈ map (fun p : nat * nat * nat => p.1.2) (sendPlaces (pCap P) (pNb P) (pT P))) as H.
  { rewrite sendPlaces_bins by done. apply elem_of_seq. lia. }
  apply elem_of_list_fmap in H as ([[t b] base] & Eb & H). cbn in Eb. subst b. exists t, base. split; [done|]. apply A.
  unfold sendWrites. apply elem_of_concat. eexists. split; [|apply elem_of_list_fmap; exists (t, itemBin P y, base); split; [reflexivity|by rewrite D5]].
  cbn. apply elem_of_list_fmap. exists j. rewrite Hp. split; [done|].
  destruct (Rr17a_Proofs.binsOk_elem (toA P) S bins (itemBin P y) j OS Hb) as (bin & Ebin & _ & HI). rewrite Ebin. apply HI. by exists y.
Qed.

Lemma slot_at P dec S t base j l : (l < pCap P)%nat ->
  take 4 (drop (20 + 20 * l) (itemRow P dec S t base j)) = bytesLE 4 (pEnc P t (base + l)%nat (otInput P (default 0 (S !! j)))).1 /\
  take 16 (drop (24 + 20 * l) (itemRow P dec S t base j)) = bytesLE 16 (N.lxor (pEnc P t (base + l)%nat (otInput P (default 0 (S !! j)))).2 (dec j)).
Proof.
  intros Hl. rewrite itemRow_eq. set (cs := map (fun l => pEnc P t (base + l)%nat (otInput P (default 0 (S !! j)))) (seq 0 (pCap P))).
  assert (cs !! l = Some (pEnc P t (base + l)%nat (otInput P (default 0 (S !! j))))) as El.
  { unfold cs. rewrite list_lookup_fmap, lookup_seq_lt by done. done. }
  assert (drop (20 + 20 * l) (bytesLE 20 (pCom P (default 0 (S !! j)) (dec j)) ++ concat (map (fun c => slotBytes c (dec j)) cs)) =
    slotBytes (pEnc P t (base + l)%nat (otInput P (default 0 (S !! j)))) (dec j) ++ concat (map (fun c => slotBytes c (dec j)) (drop (1 + l) cs))) as E.
  { rewrite <- drop_drop. rewrite (drop_app_alt (bytesLE 20 _)) by (by rewrite bytesLE_length).
    replace (20 * l)%nat with (l * 20)%nat by lia. rewrite (drop_rows _ 20); [|apply Forall_map, Forall_true; intros c; apply slotBytes_length].
    rewrite <- (take_drop_middle cs l _ El) at 1. rewrite map_app, map_cons.
    rewrite drop_app_alt by (rewrite map_length, take_length; apply lookup_lt_Some in El; lia). done. }
  replace (24 + 20 * l)%nat with ((20 + 20 * l) + 4)%nat by lia. rewrite <- (drop_drop _ 4 (20 + 20 * l)), E. unfold slotBytes at 1 3. rewrite <- !app_assoc. split.
  - by rewrite take_app_alt by (by rewrite bytesLE_length).
  - rewrite drop_app_alt by (by rewrite bytesLE_length). by rewrite take_app_alt by (by rewrite bytesLE_length).
Qed.

Lemma not_opened P rd R S t base j y : paramsOk P S -> randOk P rd -> binding P rd R S -> S !! j = Some y -> y ∉ R -> ~ opens P R (itemRow P (rDec rd) S t base j).
Proof.
  intros HS HD HB Hj Hy (x & t' & s & l & Hx & Hl & E1 & E2). pose proof HS as (_ & _ & _ & _ & _ & _ & _ & _ & _ & HE & HC). pose proof HD as (_ & D2 & _).
  destruct (slot_at P (rDec rd) S t base j l Hl) as [S1 S2]. rewrite S1 in E1. rewrite S2 in E2. rewrite Hj in E1, E2. change (default 0 (Some y)) with y in *.
  rewrite leBytes_bytesLE in E1 by apply HE. rewrite leBytes_bytesLE in E2 by (apply lxor_lt; [apply HE|apply D2]).
  rewrite itemRow_eq, take_app_alt, Hj in E2 by (by rewrite bytesLE_length). change (default 0 (Some y)) with y in E2. rewrite leBytes_bytesLE in E2 by apply HC.
  apply Hy. rewrite <- (HB x j y t' s t (base + l)%nat); done.
Qed.

Lemma rr17b_hidden P R S S' : sameCommon R S S' -> paramsOk P S -> paramsOk P S' ->
  exists h, relabels (pN P) h /\
    forall rd rd', randOk P rd -> randOk P rd' -> binding P rd R S -> binding P rd' R S' ->
      (forall j, (j < pN P)%nat -> rPerm rd' !! h j = rPerm rd !! j /\ rDec rd' (h j) = rDec rd j) ->
      exists rows rows', sentB P rd S = Some rows /\ sentB P rd' S' = Some rows' /\ looksAlike (opens P R) rows rows'.
Proof.
  intros Hc HS HS'. destruct (match_positions R S S' Hc) as (h & Ph & Hm). pose proof HS as (_ & _ & _ & HT & _ & Hw & _ & L & _). rewrite L in Ph.
  exists h. split; [done|]. intros rd rd' HD HD' HB HB' Hh.
  destruct (sent_rows P rd S HS HD) as (rows & E & Lr & A). destruct (sent_rows P rd' S' HS' HD') as (rows' & E' & Lr' & A').
  exists rows, rows'. split; [done|]. split; [done|]. apply Forall2_same_length_lookup_2; [lia|]. intros p r r' Hr Hr'.
  assert (p ∈ rPerm rd) as Hp. { rewrite (proj1 HD). apply elem_of_seq. apply lookup_lt_Some in Hr. lia. }
  apply elem_of_list_lookup in Hp as (j & Hj). assert (j < pN P)%nat as Hjn.
  { apply lookup_lt_Some in Hj. by rewrite (proj1 HD), seq_length in Hj. }
  destruct (lookup_lt_is_Some_2 S j ltac:(lia)) as [y Hy]. destruct (Hm j y Hy) as (y' & Hy' & Hcase). destruct (Hh j Hjn) as [H1 H2].
  destruct (A j y p Hy Hj) as (t & base & Hpl & Er). destruct (A' (h j) y' p Hy' ltac:(by rewrite H1)) as (t' & base' & Hpl' & Er').
  rewrite Hr in Er. injection Er as ->. rewrite Hr' in Er'. injection Er' as ->. destruct Hcase as [<-|[N1 N2]].
  - left. pose proof (sendPlaces_unique _ _ _ _ _ HT Hw Hpl Hpl' eq_refl) as EE. injection EE as <- <-. unfold itemRow. by rewrite Hy, Hy', H2.
  - right. split; by eapply not_opened.
Qed.
