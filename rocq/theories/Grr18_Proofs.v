(** Proofs about GRR18. *)
From Verif Require Import Base Partition_Model Partition_Proofs Ecdh_Model Ecdh_Proofs Dcw_Spec Dcw_Proofs Rr17_Model Rr17_Spec Rr17_Proofs Rr17a_Model Rr17a_Spec Rr17a_Proofs Grr18_Model Grr18_Spec.

Local Arguments idxRange : simpl never.
Local Arguments evenSplit : simpl never.
Local Arguments nco : simpl never.
Local Arguments itemBin : simpl never.

(** ** Loads *)

Lemma sumN_app a b : sumN (a ++ b) = sumN a + sumN b.
Proof. unfold sumN. induction a as [|x a IH]; cbn; [done|]. rewrite IH. lia. Qed.
Lemma sumN_bound k l : Forall (fun x => x <= k) l -> sumN l <= k * N.of_nat (length l).
Proof. induction 1 as [|x l Hx F IH]; cbn; [lia|]. unfold sumN in *. rewrite Nat2N.inj_succ. nia. Qed.

(** Every bin went through [binLoad]. *)
Lemma computeLoads_done c noise sizes ls tot : computeLoads c noise sizes = Done (ls, tot) ->
  length ls = length sizes /\ (forall i s l, sizes !! i = Some s -> ls !! i = Some l -> binLoad c (noise i) s = Done l) /\ tot = sumN ls mod two64.
Proof.
  unfold computeLoads. assert (forall k ls tot, (k <= length sizes)%nat ->
    foldl (fun o i => andThen o (loadStep c noise sizes i)) (Done ([], 0)) (seq 0 k) = Done (ls, tot) ->
    length ls = k /\ (forall i s l, sizes !! i = Some s -> ls !! i = Some l -> binLoad c (noise i) s = Done l) /\ tot = sumN ls mod two64) as G.
  { induction k as [|k IH]; intros ls' tot' Hk.
    - cbn. intros E. injection E as <- <-. done.
    - rewrite seq_S, foldl_app. cbn [foldl Nat.add]. destruct (foldl _ _ (seq 0 k)) as [[ls0 tot0]|[ls0 tot0]| |] eqn:E; cbn [andThen obind]; [|done|done|done].
      destruct (IH ls0 tot0 ltac:(lia) eq_refl) as (L & B & T). unfold loadStep. destruct (sizes !! k) as [s|] eqn:Es; [|done].
      destruct (binLoad c (noise k) s) as [l|l| |] eqn:EB; try done. intros EE. injection EE as <- <-. cbn [fst snd]. split; [rewrite app_length; cbn; lia|]. split.
      + intros i s' l' Hs Hl. destruct (decide (i < k)%nat) as [Hi|Hi].
        * apply (B i); [done|]. by rewrite lookup_app_l in Hl by lia.
        * assert (i < length (ls0 ++ [l]))%nat as Hlen by (by eapply lookup_lt_Some). rewrite app_length in Hlen. cbn in Hlen. assert (i = k) as -> by lia.
          rewrite Es in Hs. injection Hs as <-. rewrite list_lookup_middle in Hl by lia. injection Hl as <-. done.
      + rewrite sumN_app, T. cbn. rewrite N.add_0_r. unfold two64. rewrite N.add_mod_idemp_l by done. done. }
  intros E. apply (G _ _ _ (Nat.le_refl _) E).
Qed.

Lemma computeLoads_gen c noise sizes ls tot : computeLoads c noise sizes = Done (ls, tot) -> N.of_nat (length sizes) < 2 ^ 56 ->
  (forall i s l, sizes !! i = Some s -> binLoad c (noise i) s = Done l -> s <= l <= 255) ->
  Forall2 (fun s l => s <= l <= 255) sizes ls /\ tot = sumN ls.
Proof.
  intros E HL HB. destruct (computeLoads_done _ _ _ _ _ E) as (L & B & T).
  assert (Forall2 (fun s l => s <= l <= 255) sizes ls) as F.
  { apply Forall2_same_length_lookup_2; [done|]. intros i s l Hs Hl. apply (HB i s l Hs). by apply (B i). }
  split; [done|]. rewrite T. apply N.mod_small. assert (Forall (fun x => x <= 255) ls) as F2.
  { apply Forall_lookup_2. intros i l Hl. destruct (Forall2_lookup_r _ _ _ _ _ F Hl) as (s & _ & H). lia. }
  apply sumN_bound in F2. unfold two64. rewrite L in F2. lia.
Qed.

Lemma lap_bounds c z s l : cLap c = true -> binLoad c z s = Done l -> s <= l <= 255.
Proof.
  intros HL. unfold binLoad. rewrite HL. destruct (_ || _); [done|]. destruct (N.ltb_spec (N.min (cMax c) (Z.to_N (Z.of_N s + z)) mod 256) s); [done|].
  intros E. injection E as <-. lia.
Qed.
Lemma table_bounds c z s l : cLap c = false -> cCw c = (-1)%Z -> cOneSided c = false -> binLoad c z s = Done l -> s <= l <= 255.
Proof.
  intros H1 H2 H3. unfold binLoad. rewrite H1, H2, H3. cbn [negb Z.eqb]. change (-1 =? -1)%Z with true. cbn [negb].
  destruct (N.ltb_spec 255 s); [done|]. destruct (_ || _); [done|]. destruct (lookupAt _ _ _) as [v|]; [|done]. intros E. injection E as <-.
  assert (v mod 256 < 256) by (by apply N.mod_lt). lia.
Qed.
Lemma oneSided_bounds c z s l : cLap c = false -> cCw c = (-1)%Z -> cOneSided c = true -> (0 <= z)%Z -> s <= cBinCap c -> binLoad c z s = Done l -> s <= l <= 255.
Proof.
  intros H1 H2 H3 Hz Hs. unfold binLoad. rewrite H1, H2, H3. change (-1 =? -1)%Z with true. cbn [negb].
  destruct (_ || _); [done|]. destruct (N.ltb_spec 255 (N.min (Z.to_N (Z.of_N s + z)) (cBinCap c))); [done|]. intros E. injection E as <-. lia.
Qed.
Lemma cw_bounds c z s l : cLap c = false -> (0 <= cCw c <= 255)%Z -> s <= cMax c -> cMax c <= 255 -> binLoad c z s = Done l -> s <= l <= 255.
Proof.
  intros H1 H2 Hs Hm. unfold binLoad. rewrite H1. assert ((cCw c =? -1)%Z = false) as -> by lia. cbn [negb].
  rewrite Z.mod_small by lia. destruct (N.ltb_spec (Z.to_N (cCw c)) s); intros E; injection E as <-; rewrite N.mod_small by lia; lia.
Qed.

Lemma loads_partial c noise sizes ls tot : computeLoads c noise sizes = Done (ls, tot) -> N.of_nat (length sizes) < 2 ^ 56 -> Forall (fun s => s <= cBinCap c) sizes ->
  (cLap c = true \/ cCw c = (-1)%Z \/ ((0 <= cCw c <= 255)%Z /\ cMax c <= 255 /\ cBinCap c <= cMax c)) ->
  (cLap c = false -> cCw c = (-1)%Z -> cOneSided c = true -> forall i, (0 <= noise i)%Z) ->
  Forall2 (fun s l => s <= l <= 255) sizes ls /\ tot = sumN ls.
Proof.
  intros E HL HS HM HN. apply (computeLoads_gen c noise sizes ls tot E HL). intros i s l Hi EB. rewrite Forall_lookup in HS. specialize (HS i s Hi).
  destruct (cLap c) eqn:H1; [by apply (lap_bounds c (noise i))|]. destruct HM as [?|[H2|(H2 & H3 & H4)]]; [done| |].
  - destruct (cOneSided c) eqn:H3; [apply (oneSided_bounds c (noise i)); try done; by apply HN|by apply (table_bounds c (noise i))].
  - apply (cw_bounds c (noise i)); [done|done| |done|done]. clear -HS H4. lia.
Qed.

(** *** Loads against the capacity *)
Lemma cutTail_le m l v : v ∈ cutTail m l -> v <= m.
Proof.
  induction l as [|x l IH]; cbn; [intros H; by apply elem_of_nil in H|]. destruct (N.ltb_spec m x); [intros H'; by apply elem_of_nil in H'|].
  intros H'. apply elem_of_cons in H' as [->|H']; [done|by apply IH].
Qed.
Lemma binLoad_cap c z s l : cCw c = (-1)%Z -> s <= cBinCap c -> cMax c <= cBinCap c -> (forall v, head (cTable c) = Some v -> v <= cBinCap c) -> binLoad c z s = Done l -> l <= cBinCap c.
Proof.
  intros H2 Hs Hm Ht. unfold binLoad. rewrite H2. change (-1 =? -1)%Z with true. cbn [negb]. destruct (cLap c).
  - destruct (_ || _); [done|]. destruct (_ <? _); [done|]. intros E. injection E as <-.
    transitivity (N.min (cMax c) (Z.to_N (Z.of_N s + z))); [apply N.mod_le; done|]. lia.
  - destruct (cOneSided c).
    + destruct (_ || _); [done|]. destruct (_ <? _); [done|]. intros E. injection E as <-. lia.
    + destruct (_ <? _); [done|]. destruct (_ || _); [done|]. destruct (lookupAt _ _ _) as [v|] eqn:EV; [|done]. intros E. injection E as <-.
      assert (v <= cBinCap c) as Hv.
      { unfold lookupAt in EV. apply elem_of_list_lookup_2 in EV. unfold cutTable in EV. destruct (cTable c) as [|w tl]; [by apply elem_of_nil in EV|].
        apply elem_of_cons in EV as [->|EV]; [by apply Ht|]. apply cutTail_le in EV. lia. }
      apply N.max_lub; [|done]. transitivity v; [apply N.mod_le; done|done].
Qed.
Lemma loads_cap c noise sizes ls tot : computeLoads c noise sizes = Done (ls, tot) -> cCw c = (-1)%Z -> Forall (fun s => s <= cBinCap c) sizes -> cMax c <= cBinCap c ->
  (forall v, head (cTable c) = Some v -> v <= cBinCap c) -> Forall (fun l => l <= cBinCap c) ls.
Proof.
  intros E H2 HS Hm Ht. destruct (computeLoads_done _ _ _ _ _ E) as (L & B & T). apply Forall_lookup_2. intros i l Hl.
  destruct (lookup_lt_is_Some_2 sizes i) as [s Es]; [rewrite <- L; by eapply lookup_lt_Some|]. rewrite Forall_lookup in HS.
  apply (binLoad_cap c (noise i) s l H2 (HS i s Es) Hm Ht). by apply (B i).
Qed.

(** ** Places *)

Lemma withBase_bins loads t : forall bs a, map (fun pl : nat * nat * nat => pl.1.2) (withBase loads t a bs) = bs.
Proof. induction bs as [|b bs IH]; intros a; [done|]. cbn. by rewrite IH. Qed.
Lemma otsBefore_S loads s b : (s < b)%nat -> otsBefore loads s b = (ld loads s + otsBefore loads (S s) b)%nat.
Proof. intros H. unfold otsBefore. replace (b - s)%nat with (S (b - S s)) by lia. done. Qed.
Lemma withBase_elem loads t : forall n s a t' b base, (t', b, base) ∈ withBase loads t a (seq s n) -> t' = t /\ (s <= b < s + n)%nat /\ base = (a + otsBefore loads s b)%nat.
Proof.
  induction n as [|n IH]; intros s a t' b base H; [by apply elem_of_nil in H|]. cbn [seq withBase] in H. apply elem_of_cons in H as [E|H].
  - injection E as -> -> ->. split; [done|]. split; [lia|]. unfold otsBefore. by rewrite Nat.sub_diag, Nat.add_0_r.
  - destruct (IH _ _ _ _ _ H) as (-> & Hb & ->). split; [done|]. split; [lia|]. rewrite (otsBefore_S loads s b) by lia. lia.
Qed.

Section Places.
  Context (P : params) (HT : (0 < pT P)%nat) (Hw : N.of_nat (pNb P) * N.of_nat (pT P) < 2 ^ 64).

  Lemma idxRange_firstBin t : (t < pT P)%nat -> idxRange (pNb P) (pT P) t = seq (firstBin P t) (firstBin P (t + 1) - firstBin P t).
  Proof using HT Hw.
    intros Ht. unfold idxRange, evenSplit, firstBin, two64. rewrite !N.mod_small by nia.
    replace (N.of_nat t + 1) with (N.of_nat (t + 1)) by lia. rewrite <- !Nat2N.inj_mul, <- !Nat2N.inj_div, !Nat2N.id. done.
  Qed.
  Definition inThr (t b : nat) : Prop := (t < pT P)%nat /\ (firstBin P t <= b < firstBin P (t + 1))%nat.
  Lemma inThr_elem t b : inThr t b <-> (t < pT P)%nat /\ b ∈ idxRange (pNb P) (pT P) t.
  Proof using HT Hw.
    unfold inThr. split; intros [Ht H]; (split; [done|]).
    - rewrite idxRange_firstBin by done. apply elem_of_seq. lia.
    - rewrite idxRange_firstBin in H by done. apply elem_of_seq in H. lia.
  Qed.
  Lemma inThr_unique t t' b : inThr t b -> inThr t' b -> t = t'.
  Proof using HT Hw.
    rewrite !inThr_elem. intros [Ht H] [Ht' H']. apply (NoDup_concat_map_inj (idxRange (pNb P) (pT P)) (seq 0 (pT P)) t t' b); [|apply elem_of_seq; lia|apply elem_of_seq; lia|done|done].
    change (@idxRange) with Ecdh_Model.idxRange. rewrite (idxRange_concat (pNb P) (pT P) HT Hw). apply NoDup_seq.
  Qed.
  Lemma inThr_exists b : (b < pNb P)%nat -> exists t, inThr t b.
  Proof using HT Hw.
    intros Hb. assert (b ∈ concat (map (idxRange (pNb P) (pT P)) (seq 0 (pT P)))) as H.
    { change (@idxRange) with Ecdh_Model.idxRange. rewrite (idxRange_concat (pNb P) (pT P) HT Hw). apply elem_of_seq. lia. }
    apply elem_of_concat in H as (l & Hl & H). apply elem_of_list_fmap in H as (t & -> & Ht). exists t. apply inThr_elem. apply elem_of_seq in Ht. split; [lia|done].
  Qed.
  Lemma inThr_lt t b : inThr t b -> (b < pNb P)%nat.
  Proof using HT Hw. intros [Ht H]%inThr_elem. by apply (idxRange_lt (pNb P) (pT P) t b HT Hw). Qed.

  Lemma placesL_elem loads t t' b base : (t < pT P)%nat -> (t', b, base) ∈ placesL loads (pNb P) (pT P) t <-> t' = t /\ inThr t b /\ base = otsBefore loads (firstBin P t) b.
  Proof using HT Hw.
    intros Ht. unfold placesL. split.
    - rewrite idxRange_firstBin by done. intros H. apply withBase_elem in H as (-> & Hb & ->). split; [done|]. split; [|done]. unfold inThr. lia.
    - intros (-> & HI & ->). assert (b ∈ map (fun pl : nat * nat * nat => pl.1.2) (withBase loads t 0 (idxRange (pNb P) (pT P) t))) as H.
      { rewrite withBase_bins. by apply inThr_elem. }
      apply elem_of_list_fmap in H as ([[t1 b1] base1] & -> & H). cbn [fst snd] in *. pose proof H as H'. rewrite idxRange_firstBin in H by done. apply withBase_elem in H as (-> & _ & ->). exact H'.
  Qed.
  Lemma placesL_bins loads ts : ts ≡ₚ seq 0 (pT P) -> map (fun pl : nat * nat * nat => pl.1.2) (concat (map (placesL loads (pNb P) (pT P)) ts)) ≡ₚ seq 0 (pNb P).
  Proof using HT Hw.
    intros HP. rewrite <- concat_map_map, map_map. rewrite (Permutation_concat_map _ _ _ HP).
    rewrite (map_ext _ (idxRange (pNb P) (pT P))); [|intros t; unfold placesL; apply withBase_bins]. change (@idxRange) with Ecdh_Model.idxRange.
    by rewrite (idxRange_concat (pNb P) (pT P) HT Hw).
  Qed.
End Places.

(** ** Own OTs *)

Definition partOkL (loads : list nat) (bins : list (list nat)) (pl : nat * nat * nat) (part : list (nat * nat)) : Prop := partOk (ld loads pl.1.2) bins pl part.

Lemma sendAssign_okL loads shuf bins pls :
  (forall t b base, (t, b, base) ∈ pls -> shuf b ≡ₚ seq 0 (ld loads b) /\ exists bin, bins !! b = Some bin /\ (length bin <= ld loads b)%nat) ->
  exists parts, sendAssign shuf bins pls = Some (concat parts) /\ Forall2 (partOkL loads bins) pls parts.
Proof.
  induction pls as [|[[t b] base] pls IH]; intros HB; cbn [sendAssign]; [by exists []|].
  destruct (HB t b base ltac:(left)) as (HS & bin & E & L). rewrite E. destruct IH as (parts & Ep & F); [intros t' b' base' H; eapply HB; by right|].
  rewrite Ep. eexists (_ :: parts). split; [done|]. constructor; [|done].
  pose proof (omap_zip_seq (fun p => bin !! p) (shuf b) 0) as (E1 & N1 & L1). unfold partOkL. cbn [fst snd]. apply (partOk_shift (ld loads b) bins t b base bin); [done| |done|].
  - unfold sendSlots. rewrite E1. rewrite (omap_perm _ _ _ HS). by rewrite omap_lookup_seq.
  - intros s Hs. apply L1 in Hs. rewrite HS, seq_length in Hs. lia.
Qed.

Lemma partsL_fst loads bins pls parts : Forall2 (partOkL loads bins) pls parts ->
  (concat parts).*1 ≡ₚ concat (map (fun pl : nat * nat * nat => default [] (bins !! pl.1.2)) pls).
Proof.
  intros F. induction F as [|pl part pls parts (bin & E & Hp & _) F IH]; [done|]. cbn. rewrite fmap_app, IH, E. cbn. by rewrite Hp.
Qed.

Lemma bin_load P items bins b bin : binsOk P items bins -> bins !! b = Some bin -> length bin = load P items b.
Proof.
  intros (ord & HO & L & K) E. assert (b < pNb P)%nat as Hb by (rewrite <- L; by eapply lookup_lt_Some). rewrite (K b Hb) in E. injection E as <-.
  by rewrite (filter_perm _ _ _ HO), load_length.
Qed.

Lemma party_masksL P items bins enc inp shuf loads : paramsOk P items -> binsOk P items bins ->
  (forall b, (b < pNb P)%nat -> shuf b ≡ₚ seq 0 (ld loads b) /\ (load P items b <= ld loads b)%nat) ->
  exists asg, mapM (fun t => sendAssign shuf bins (placesL loads (pNb P) (pT P) t)) (seq 0 (pT P)) = Some asg /\
  forall t i x, inThr P t (itemBin P x) -> items !! i = Some x ->
  exists s, (s < ld loads (itemBin P x))%nat /\
    threadMasks enc inp asg (replicate (pN P) 0) !! i = Some (enc t (otsBefore loads (firstBin P t) (itemBin P x) + s)%nat (default 0 (inp !! i))).
Proof.
  intros (Hn & Hnb & Hcap & HT & HM & Hw & HL & HC) HB HS.
  assert (forall t, (t < pT P)%nat -> exists parts, sendAssign shuf bins (placesL loads (pNb P) (pT P) t) = Some (concat parts) /\ Forall2 (partOkL loads bins) (placesL loads (pNb P) (pT P) t) parts) as HA.
  { intros t Ht. apply sendAssign_okL. intros t' b base H. apply placesL_elem in H as (-> & HI & _); [|done|done|done]. pose proof (inThr_lt P HT Hw _ _ HI) as Hb. destruct (HS b Hb) as [H1 H2]. split; [done|].
    destruct (binsOk_elem P items bins b 0 HB Hb) as (bin & Eb & _). exists bin. split; [done|]. rewrite (bin_load P items bins b bin HB Eb). exact H2. }
  set (f := fun t => sendAssign shuf bins (placesL loads (pNb P) (pT P) t)) in *. set (asg := fun t => default [] (f t)).
  assert (mapM f (seq 0 (pT P)) = Some (map asg (seq 0 (pT P)))) as EM.
  { apply mapM_total. intros t Ht. apply elem_of_seq in Ht. destruct (HA t ltac:(lia)) as (parts & E & _). unfold asg, f. by rewrite E. }
  exists (map asg (seq 0 (pT P))). split; [exact EM|]. intros t i x HI Hi. pose proof HI as [Ht HI2].
  assert (NoDup (concat (map asg (seq 0 (pT P)))).*1) as ND.
  { assert ((concat (map asg (seq 0 (pT P)))).*1 ≡ₚ concat (map (fun pl : nat * nat * nat => default [] (bins !! pl.1.2)) (concat (map (placesL loads (pNb P) (pT P)) (seq 0 (pT P)))))) as E.
    { assert (forall ts, (forall t, t ∈ ts -> (t < pT P)%nat) ->
        (concat (map asg ts)).*1 ≡ₚ concat (map (fun pl : nat * nat * nat => default [] (bins !! pl.1.2)) (concat (map (placesL loads (pNb P) (pT P)) ts)))) as G.
      { induction ts as [|t0 ts IH]; intros Hts; [done|]. cbn [map concat]. rewrite fmap_app, map_app, concat_app. destruct (HA t0) as (parts & Ea & F); [apply Hts; left|].
        assert (asg t0 = concat parts) as -> by (unfold asg, f; by rewrite Ea).
        rewrite (partsL_fst _ _ _ _ F). apply Permutation_app_head. apply IH. intros t' Ht'. apply Hts. by right. }
      apply G. intros t0 Ht0. apply elem_of_seq in Ht0. lia. }
    rewrite E. rewrite (binsOk_all P items bins _ Hnb HB); [apply NoDup_seq|]. by apply placesL_bins. }
  destruct (threadMasks_gen enc inp (map asg (seq 0 (pT P))) 0 (replicate (pN P) 0)) as (_ & _ & A).
  destruct (HA t Ht) as (parts & Ea & F). set (b := itemBin P x) in *. set (base := otsBefore loads (firstBin P t) b).
  assert ((t, b, base) ∈ placesL loads (pNb P) (pT P) t) as Hpl by (by apply placesL_elem).
  apply elem_of_list_lookup in Hpl as [k Hk]. destruct (Forall2_lookup_l _ _ _ _ _ F Hk) as (part & Epart & bin & Ebin & Hfst & _ & HSl). cbn [fst snd] in *.
  destruct (binsOk_elem P items bins b i HB) as (bin' & Ebin' & _ & HIb); [by apply itemBin_lt|]. rewrite Ebin in Ebin'. injection Ebin' as <-.
  assert (i ∈ part.*1) as Hin by (rewrite Hfst; apply HIb; eauto). apply elem_of_list_fmap in Hin as ([i' s] & E & Hin). cbn in E. subst i'.
  exists (s - base)%nat. pose proof (HSl s ltac:(by apply (elem_of_list_fmap_1 snd) in Hin)) as Hs. split; [lia|].
  replace (base + (s - base))%nat with s by lia. unfold threadMasks. rewrite (A ND t (asg t) i s); [done| | |].
  - rewrite (list_lookup_fmap asg), lookup_seq_lt by done. done.
  - unfold asg, f. rewrite Ea. apply elem_of_concat. exists part. split; [done|]. by eapply elem_of_list_lookup_2.
  - rewrite replicate_length, <- HL. by eapply lookup_lt_Some.
Qed.

(** ** Masks *)

Lemma flushes_concat {A} size blocks : forall cur : list A, concat (flushes size cur blocks) = cur ++ concat blocks.
Proof.
  induction blocks as [|b bs IH]; intros cur; cbn [flushes concat]; [by rewrite app_nil_r|]. destruct (_ <? _); cbn [concat]; rewrite IH; [done|]. by rewrite <- app_assoc.
Qed.

Lemma concat_if_unique {A} (p : nat -> bool) (f : nat -> list A) ts t : NoDup ts -> t ∈ ts -> p t = true -> (forall t', t' ∈ ts -> p t' = true -> t' = t) ->
  concat (map (fun t => if p t then f t else []) ts) = f t.
Proof.
  intros ND Ht Hp U. induction ts as [|c ts IH]; [by apply elem_of_nil in Ht|]. apply NoDup_cons in ND as [NI ND]. cbn [map concat].
  apply elem_of_cons in Ht as [->|Ht].
  - rewrite Hp. assert (concat (map (fun t => if p t then f t else []) ts) = []) as ->; [|by rewrite app_nil_r].
    assert (forall l, (forall t', t' ∈ l -> p t' = false) -> concat (map (fun t => if p t then f t else []) l) = []) as G.
    { induction l as [|a l IHl]; intros H; [done|]. cbn. rewrite H by left. apply IHl. intros t' Ht'. apply H. by right. }
    apply G. intros t' Ht'. destruct (p t') eqn:E; [|done]. rewrite (U t') in Ht'; [done|by right|done].
  - destruct (p c) eqn:E.
    + rewrite (U c) in NI; [done|left|done].
    + cbn. apply IH; [done|done|]. intros t' Ht'. apply U. by right.
Qed.

Definition fullG (P : params) (lR lS : list nat) (t l1 l2 : nat) (x : N) : N :=
  N.lxor (pEncR P t (otsBefore lR (firstBin P t) (itemBin P x) + l1)%nat (nco P x)) (pEncS P t (otsBefore lS (firstBin P t) (itemBin P x) + l2)%nat (nco P x)).

Lemma grrMasks_eq P lR lS t x : (0 < pT P)%nat -> N.of_nat (pNb P) * N.of_nat (pT P) < 2 ^ 64 -> inThr P t (itemBin P x) ->
  grrMasks P lR lS x = concat (map (fun l1 => map (fun l2 => fullG P lR lS t l1 l2 x) (seq 0 (ld lS (itemBin P x)))) (seq 0 (ld lR (itemBin P x)))).
Proof.
  intros HT Hw HI. pose proof HI as [Ht HI2]. unfold grrMasks. rewrite (concat_if_unique _ _ (seq 0 (pT P)) t); [done|apply NoDup_seq|apply elem_of_seq; lia| |].
  - apply andb_true_iff. split; [apply Nat.leb_le|apply Nat.ltb_lt]; lia.
  - intros t' Ht' Hp. apply andb_true_iff in Hp as [H1%Nat.leb_le H2%Nat.ltb_lt]. apply elem_of_seq in Ht'. apply (inThr_unique P HT Hw t' t (itemBin P x)); [|done]. unfold inThr. lia.
Qed.

Lemma grr_in P lR lS t x l1 l2 : (0 < pT P)%nat -> N.of_nat (pNb P) * N.of_nat (pT P) < 2 ^ 64 -> inThr P t (itemBin P x) ->
  (l1 < ld lR (itemBin P x))%nat -> (l2 < ld lS (itemBin P x))%nat -> fullG P lR lS t l1 l2 x ∈ grrMasks P lR lS x.
Proof.
  intros HT Hw HI H1 H2. rewrite (grrMasks_eq P lR lS t x HT Hw HI). apply elem_of_concat. eexists. split; [|apply elem_of_list_fmap; exists l1; split; [reflexivity|apply elem_of_seq; lia]].
  apply elem_of_list_fmap. exists l2. split; [done|apply elem_of_seq; lia].
Qed.

Lemma keyOf_eq P m : keyOf P m = m mod 2 ^ keyBits P.
Proof. done. Qed.

Lemma grr_inj P lR lS U t t' l1 l2 l1' l2' x y : (0 < pT P)%nat -> N.of_nat (pNb P) * N.of_nat (pT P) < 2 ^ 64 -> grrCollisionFree P lR lS U -> x ∈ U -> y ∈ U ->
  inThr P t (itemBin P x) -> inThr P t' (itemBin P y) -> (l1 < ld lR (itemBin P x))%nat -> (l2 < ld lS (itemBin P x))%nat ->
  (l1' < ld lR (itemBin P y))%nat -> (l2' < ld lS (itemBin P y))%nat ->
  keyOf P (fullG P lR lS t l1 l2 x) = keyOf P (fullG P lR lS t' l1' l2' y) -> x = y /\ l1 = l1' /\ l2 = l2'.
Proof.
  intros HT Hw [CF _] Hx Hy Ix Iy L1 L2 L1' L2' E. rewrite <- concat_map_map, map_map in CF.
  assert (x = y) as <-.
  { apply (NoDup_concat_map_inj (fun z => map (keyOf P) (grrMasks P lR lS z)) U x y (keyOf P (fullG P lR lS t l1 l2 x))); [done|done|done| |].
    - apply (elem_of_list_fmap_1 (keyOf P)). by apply grr_in.
    - rewrite E. apply (elem_of_list_fmap_1 (keyOf P)). by apply grr_in. }
  split; [done|]. rewrite <- (inThr_unique P HT Hw _ _ _ Ix Iy) in *.
  assert (NoDup (map (keyOf P) (grrMasks P lR lS x))) as ND.
  { apply (NoDup_concat_part _ _ CF). by apply (elem_of_list_fmap_1 (fun z => map (keyOf P) (grrMasks P lR lS z))). }
  rewrite (grrMasks_eq P lR lS t x HT Hw Ix), <- concat_map_map, map_map in ND.
  assert (l1 = l1') as <-.
  { apply (NoDup_concat_map_inj _ _ l1 l1' (keyOf P (fullG P lR lS t l1 l2 x)) ND); [apply elem_of_seq; lia|apply elem_of_seq; lia| |].
    - apply (elem_of_list_fmap_1 (keyOf P)), elem_of_list_fmap. exists l2. split; [done|apply elem_of_seq; lia].
    - rewrite E. apply (elem_of_list_fmap_1 (keyOf P)), elem_of_list_fmap. exists l2'. split; [done|apply elem_of_seq; lia]. }
  split; [done|]. assert (NoDup (map (keyOf P) (map (fun l2 => fullG P lR lS t l1 l2 x) (seq 0 (ld lS (itemBin P x)))))) as ND3.
  { apply (NoDup_concat_part _ _ ND). apply elem_of_list_fmap. exists l1. split; [done|apply elem_of_seq; lia]. }
  rewrite map_map in ND3. apply (NoDup_map_inj_on _ _ l2 l2' ND3); [apply elem_of_seq; lia|apply elem_of_seq; lia|done].
Qed.

(** ** The run *)

Record grrFacts (P : params) (lR lS : list nat) (R S : list N) (entries : list (N * (nat * N))) (rows : list N) (slotR : nat -> nat) : Prop := {
  gfSlot : forall i x, R !! i = Some x -> (slotR i < ld lR (itemBin P x))%nat;
  gfEnt : forall k p m, (k, (p, m)) ∈ entries <-> exists t i x l, R !! i = Some x /\ inThr P t (itemBin P x) /\ (l < ld lS (itemBin P x))%nat /\
    p = (i * pCap P + l)%nat /\ m = fullG P lR lS t (slotR i) l x /\ k = keyOf P m;
  gfRows : exists row, rows ≡ₚ concat (map row (seq 0 (length S))) /\ forall j y t, S !! j = Some y -> inThr P t (itemBin P y) ->
    exists s, (s < ld lS (itemBin P y))%nat /\ row j = map (fun l => fullG P lR lS t l s y mod 2 ^ (8 * pMask P)) (seq 0 (ld lR (itemBin P y))) }.

Lemma choice_nat (Q : nat -> nat -> Prop) n : (forall i, (i < n)%nat -> exists s, Q i s) -> exists f, forall i, (i < n)%nat -> Q i (f i).
Proof.
  induction n as [|n IH]; intros H; [exists (fun _ => 0%nat); intros; lia|]. destruct IH as [f Hf]; [intros; apply H; lia|]. destruct (H n ltac:(lia)) as [s Hs].
  exists (fun i => if decide (i = n) then s else f i). intros i Hi. destruct (decide (i = n)) as [->|]; [done|]. apply Hf. lia.
Qed.

Lemma ld_lookup loads b : (b < length loads)%nat -> loads !! b = Some (ld loads b).
Proof. intros H. unfold ld. destruct (lookup_lt_is_Some_2 loads b H) as [l ->]. done. Qed.

Lemma recvLoads_ok P R S own loadsS : loadsOk P R own -> loadsOk P S loadsS -> loadsOk P R (recvLoads own loadsS).
Proof.
  intros [L1 H1] [L2 H2]. unfold recvLoads. split; [rewrite zip_with_length; lia|]. intros b l. rewrite lookup_zip_with_Some. intros (u & v & -> & Hu & Hv).
  specialize (H1 _ _ Hu). specialize (H2 _ _ Hv). lia.
Qed.

Lemma grr_facts P rd ownR lS R S old : let lR := recvLoads ownR lS in
  paramsOk P R -> paramsOk P S -> 0 < pMask P -> loadsOk P R ownR -> loadsOk P S lS -> grrRandOk P lR lS rd -> (0 <= gSurplus rd)%Z ->
  (forall x, x ∈ R -> 0 ∉ map (keyOf P) (grrMasks P lR lS x)) ->
  exists entries rows slotR, grrFacts P lR lS R S entries rows slotR /\
    let all := rows ++ map (gPad rd) (seq 0 (Z.to_nat (gSurplus rd))) in
    grrRun P rd ownR lS R S old = Done (mkResult (old ++ concat (map (fun t => omap (findMask P (recvTable entries)) (omap (fun k => all !! k) (idxRange (length all) (pT P) t))) (gOut rd)))
      (inputsAfter P R) (inputsAfter P S)).
Proof.
  intros lR HR HS HMp HLR HLS HD HSur HZ. pose proof HR as (Hn & Hnb & Hcap & HT & HM & Hw & HLenR & HCR). pose proof HS as (_ & _ & _ & _ & _ & _ & HLenS & HCS).
  pose proof (recvLoads_ok P R S ownR lS HLR HLS) as HLRR. fold lR in HLRR.
  destruct HD as (D1 & D2 & D3 & D4 & D5 & D6 & D7). destruct (mkBins_ok P R _ HR D3) as (binsR & ER & OR). destruct (mkBins_ok P S _ HS D4) as (binsS & ES & OS).
  unfold grrRun. fold lR. rewrite HLenR, HLenS, Nat.eqb_refl. cbn [negb orb]. assert ((16 <? pMask P) = false) as -> by (apply N.ltb_ge; done).
  assert ((pMask P =? 0) = false) as -> by (apply N.eqb_neq; lia). rewrite ER, ES.
  destruct (party_masksL P R binsR (pEncR P) (map (nco P) R) (gShufR rd) lR HR OR) as (asR & EaR & MR).
  { intros b Hb. destruct HLRR as [L K]. pose proof (ld_lookup lR b ltac:(lia)) as E. split; [by apply D1|]. by apply (K b). }
  destruct (party_masksL P S binsS (pEncS P) (map (nco P) S) (gShufS rd) lS HS OS) as (asS & EaS & MS).
  { intros b Hb. destruct HLS as [L K]. pose proof (ld_lookup lS b ltac:(lia)) as E. split; [by apply D2|]. by apply (K b). }
  rewrite EaR, EaS. set (masksR := threadMasks (pEncR P) (map (nco P) R) asR (replicate (pN P) 0)) in *. set (masksS := threadMasks (pEncS P) (map (nco P) S) asS (replicate (pN P) 0)) in *.
  set (batches := concat (map (fun t => flushes (N.of_nat (pCap P) * 4096) [] (grrBlocks P lS (map (nco P) R) masksR binsR t)) (seq 0 (pT P)))). set (entries := concat (gIns rd batches)).
  set (rows := concat (map (grrRows P lR (map (nco P) S) masksS binsS) (gThr rd))).
  destruct (choice_nat (fun i s => forall x t, R !! i = Some x -> inThr P t (itemBin P x) -> (s < ld lR (itemBin P x))%nat /\
     masksR !! i = Some (pEncR P t (otsBefore lR (firstBin P t) (itemBin P x) + s)%nat (nco P x))) (pN P)) as [slotR HsR].
  { intros i Hi. destruct (lookup_lt_is_Some_2 R i ltac:(lia)) as [x Ex]. destruct (inThr_exists P HT Hw (itemBin P x) (itemBin_lt P x Hnb)) as [t It].
    destruct (MR t i x It Ex) as (s & Hs & Es). exists s. intros x' t' Ex' It'. rewrite Ex in Ex'. injection Ex' as <-. rewrite (inThr_unique P HT Hw _ _ _ It' It). split; [done|].
    rewrite (list_lookup_fmap (nco P)), Ex in Es. exact Es. }
  assert (forall i x, R !! i = Some x -> (i < pN P)%nat) as LTR by (intros i x E; apply lookup_lt_Some in E; lia).
  assert (forall e, e ∈ entries <-> exists t, (t < pT P)%nat /\ exists blk, e ∈ blk /\ blk ∈ grrBlocks P lS (map (nco P) R) masksR binsR t) as ENT.
  { intros e. unfold entries. rewrite (Permutation_concat' _ _ (D5 batches)). unfold batches.
    assert (forall ts, e ∈ concat (concat (map (fun t => flushes (N.of_nat (pCap P) * 4096) [] (grrBlocks P lS (map (nco P) R) masksR binsR t)) ts)) <->
      exists t, t ∈ ts /\ e ∈ concat (grrBlocks P lS (map (nco P) R) masksR binsR t)) as G.
    { induction ts as [|t ts IH]; cbn [map concat].
      - split; [intros H; by apply elem_of_nil in H|intros (t & H & _); by apply elem_of_nil in H].
      - rewrite concat_app, elem_of_app, flushes_concat, IH. cbn [app]. split.
        + intros [H|(t' & H1 & H2)]; [exists t; split; [left|done]|exists t'; split; [by right|done]].
        + intros (t' & H1 & H2). apply elem_of_cons in H1 as [->|H1]; [by left|right; by exists t']. }
    rewrite G. split; intros (t & Ht & H).
    - exists t. apply elem_of_seq in Ht. split; [lia|]. apply elem_of_concat in H as (blk & H1 & H2). by exists blk.
    - exists t. split; [apply elem_of_seq; lia|]. apply elem_of_concat. destruct H as (blk & H1 & H2). by exists blk. }
  assert (grrFacts P lR lS R S entries rows slotR) as GF.
  { split.
    - intros i x Ex. destruct (inThr_exists P HT Hw (itemBin P x) (itemBin_lt P x Hnb)) as [t It]. by apply (HsR i (LTR i x Ex) x t Ex It).
    - intros k p m. rewrite ENT. split.
      + intros (t & Ht & blk & He & Hblk). unfold grrBlocks in Hblk. apply elem_of_concat in Hblk as (l1 & Hblk & H). apply elem_of_list_fmap in H as ([[t' b] base] & -> & Hpl).
        apply placesL_elem in Hpl as (-> & It & ->); [|done|done|done]. apply elem_of_list_fmap in Hblk as (i & -> & Hi).
        pose proof (inThr_lt P HT Hw _ _ It) as Hb. destruct (binsOk_elem P R binsR b i OR Hb) as (bin & Eb & _ & HI). rewrite Eb in Hi. apply HI in Hi as (x & Ex & <-).
        destruct (HsR i (LTR i x Ex) x t Ex It) as [Hs Es].
        apply elem_of_lookup_imap_1 in He as (l & m' & EE & Hl). injection EE as -> -> ->. unfold itemMasks in Hl. rewrite (list_lookup_fmap (fun l => N.lxor _ _)) in Hl.
        destruct (seq 0 (ld lS (itemBin P x)) !! l) as [l'|] eqn:El; [|done]. apply lookup_seq in El as [-> El]. cbn in Hl. injection Hl as <-.
        exists t, i, x, l. split; [done|]. split; [done|]. split; [done|]. split; [done|].
        rewrite Es, (list_lookup_fmap (nco P)), Ex. cbn [default fmap option_fmap option_map]. unfold id, fullG. rewrite (N.lxor_comm (pEncR P _ _ _)). done.
      + intros (t & i & x & l & Ex & It & Hl & -> & -> & ->). exists t. split; [apply It|]. eexists. split.
        2:{ unfold grrBlocks. apply elem_of_concat. eexists. split.
            2:{ apply elem_of_list_fmap. exists (t, itemBin P x, otsBefore lS (firstBin P t) (itemBin P x)). split; [reflexivity|]. apply placesL_elem; [done|done|apply It|done]. }
            cbn beta iota. apply elem_of_list_fmap. exists i. split; [reflexivity|].
            destruct (binsOk_elem P R binsR (itemBin P x) i OR (itemBin_lt P x Hnb)) as (bin & Eb & _ & HI). rewrite Eb. apply HI. eauto. }
        destruct (HsR i (LTR i x Ex) x t Ex It) as [Hs Es].
        apply elem_of_list_lookup. exists l. rewrite list_lookup_imap. unfold itemMasks. rewrite (list_lookup_fmap (fun l => N.lxor _ _)), lookup_seq_lt by done.
        cbn [fmap option_fmap option_map Nat.add]. rewrite Es, (list_lookup_fmap (nco P)), Ex. cbn [default fmap option_fmap option_map]. unfold id, fullG. rewrite (N.lxor_comm (pEncR P _ _ _)). done.
    - set (trunc := fun m => m mod 2 ^ (8 * pMask P)).
      set (thr := fun b => match list_find (fun t => inThr P t b) (seq 0 (pT P)) with Some (_, t) => t | None => 0%nat end).
      assert (forall t b, inThr P t b -> thr b = t) as THR.
      { intros t b It. unfold thr. destruct (list_find _ _) as [[k t']|] eqn:EF.
        - apply list_find_Some in EF as (_ & It' & _). by apply (inThr_unique P HT Hw t' t b).
        - apply list_find_None in EF. rewrite Forall_forall in EF. exfalso. apply (EF t); [|done]. apply elem_of_seq. destruct It. lia. }
      set (row := fun j => let b := itemBin P (default 0 (S !! j)) in
        map trunc (itemMasks (pEncR P) (ld lR b) (map (nco P) S) masksS (thr b) (otsBefore lR (firstBin P (thr b)) b) j)).
      exists row. split.
      + set (js := concat (map (fun pl : nat * nat * nat => default [] (binsS !! pl.1.2)) (concat (map (placesL lR (pNb P) (pT P)) (gThr rd))))).
        assert (js ≡ₚ seq 0 (length S)) as HJ by (apply (binsOk_all P S binsS); [done|done|by apply placesL_bins]).
        rewrite <- (Permutation_concat_map row _ _ HJ). unfold js, rows.
        assert (forall ts, (forall t, t ∈ ts -> (t < pT P)%nat) -> concat (map (grrRows P lR (map (nco P) S) masksS binsS) ts) =
          concat (map row (concat (map (fun pl : nat * nat * nat => default [] (binsS !! pl.1.2)) (concat (map (placesL lR (pNb P) (pT P)) ts)))))) as G.
        { induction ts as [|t ts IH]; intros Hts; [done|]. cbn [map concat]. rewrite map_app, concat_app, map_app, concat_app. rewrite IH by (intros t' Ht'; apply Hts; by right). f_equal.
          assert (t < pT P)%nat as Ht by (apply Hts; left). unfold grrRows.
          assert (forall pls, (forall pl, pl ∈ pls -> pl ∈ placesL lR (pNb P) (pT P) t) ->
            concat (map (fun pl : nat * nat * nat => let '(t, b, base) := pl in concat (map (fun i => map (fun m => m mod 2 ^ (8 * pMask P)) (itemMasks (pEncR P) (ld lR b) (map (nco P) S) masksS t base i)) (default [] (binsS !! b)))) pls) =
            concat (map row (concat (map (fun pl : nat * nat * nat => default [] (binsS !! pl.1.2)) pls)))) as G2.
          { induction pls as [|[[t' b] base] pls IHp]; intros Hp; [done|]. cbn [map concat]. rewrite map_app, concat_app. rewrite IHp by (intros pl Hpl; apply Hp; by right). f_equal. cbn [fst snd].
            pose proof (Hp _ ltac:(left)) as Hpl. apply placesL_elem in Hpl as (-> & It & ->); [|done|done|done]. f_equal. apply map_ext_in. intros j Hj. apply elem_of_list_In in Hj.
            pose proof (inThr_lt P HT Hw _ _ It) as Hb. destruct (binsOk_elem P S binsS b j OS Hb) as (bin & Eb & _ & HI). rewrite Eb in Hj. apply HI in Hj as (y & Ey & <-).
            unfold row. rewrite Ey. cbn [default]. unfold id. by rewrite (THR _ _ It). }
          apply G2. done. }
        rewrite G; [done|]. intros t Ht. rewrite D6 in Ht. apply elem_of_seq in Ht. lia.
      + intros j y t Ey It. destruct (MS t j y It Ey) as (s & Hs & Es). exists s. split; [done|]. unfold row. rewrite Ey. cbn [default]. unfold id. rewrite (THR _ _ It).
        unfold itemMasks. rewrite map_map. apply map_ext. intros l. rewrite Es. rewrite (list_lookup_fmap (nco P)), Ey. done. }
  exists entries, rows, slotR. split; [exact GF|]. cbv zeta.
  assert (existsb (fun l => pCap P <? l)%nat lS = false) as ->.
  { apply not_true_iff_false. intros H. apply existsb_exists in H as (l & Hl & H). apply Nat.ltb_lt in H. apply elem_of_list_In, elem_of_list_lookup in Hl as [b Hb]. apply HLS in Hb. lia. }
  assert (existsb (fun e : N * (nat * N) => e.1 =? 0) entries = false) as ->.
  { apply not_true_iff_false. intros H. apply existsb_exists in H as ([k [p m]] & He & H). apply N.eqb_eq in H. cbn [fst] in H. subst k. apply elem_of_list_In in He.
    apply (gfEnt _ _ _ _ _ _ _ _ GF) in He as (t & i & x & l & Ex & It & Hl & _ & Em & Ek). apply (HZ x); [by eapply elem_of_list_lookup_2|]. rewrite Ek, Em.
    apply (elem_of_list_fmap_1 (keyOf P)). apply grr_in; [done|done|done| |done]. by apply (gfSlot _ _ _ _ _ _ _ _ GF). }
  assert ((gSurplus rd <? 0)%Z = false) as -> by (apply Z.ltb_ge; done). done.
Qed.

Section Results.
  Context (P : params) (lR lS : list nat) (R S : list N) (entries : list (N * (nat * N))) (rows : list N) (slotR : nat -> nat).
  Hypothesis (HR : paramsOk P R) (HS : paramsOk P S) (GF : grrFacts P lR lS R S entries rows slotR) (ND : NoDup R)
    (HcapS : forall b, (ld lS b <= pCap P)%nat) (HcapR : forall b, (ld lR b <= pCap P)%nat).

  Lemma grr_fun U : grrCollisionFree P lR lS U -> (forall x, x ∈ R -> x ∈ U) -> funEntries entries.
  Proof using HR GF ND.
    pose proof HR as (Hn & Hnb & Hcap & HT & HM & Hw & HLR & HCR). intros CF HU [k [p m]] [k' [p' m']] H H' E. cbn [fst] in E. subst k'.
    apply (gfEnt _ _ _ _ _ _ _ _ GF) in H as (t & i & x & l & Ex & It & Hl & -> & Em & Ek). apply (gfEnt _ _ _ _ _ _ _ _ GF) in H' as (t' & i' & x' & l' & Ex' & It' & Hl' & -> & Em' & Ek').
    pose proof (gfSlot _ _ _ _ _ _ _ _ GF _ _ Ex) as Sx. pose proof (gfSlot _ _ _ _ _ _ _ _ GF _ _ Ex') as Sx'.
    destruct (grr_inj P lR lS U t t' (slotR i) l (slotR i') l' x x' HT Hw CF) as (<- & E1 & <-); try done.
    - apply HU. by eapply elem_of_list_lookup_2.
    - apply HU. by eapply elem_of_list_lookup_2.
    - by rewrite <- Em, <- Em', <- Ek, <- Ek'.
    - rewrite (NoDup_lookup R i i' x ND Ex Ex') in *. rewrite (inThr_unique P HT Hw _ _ _ It' It) in Em'. by rewrite Em, Em'.
  Qed.

  Lemma grr_find_entry U p m : grrCollisionFree P lR lS U -> (forall x, x ∈ R -> x ∈ U) -> (keyOf P m, (p, m)) ∈ entries ->
    findMask P (recvTable entries) (m mod 2 ^ (8 * pMask P)) = Some (N.of_nat (p / pCap P)).
  Proof using HR GF ND. intros CF HU H. apply findMask_at; [by apply (grr_fun U)|done]. Qed.

  Lemma grr_find_none m : (forall p m', (keyOf P m', (p, m')) ∈ entries -> keyOf P m' <> keyOf P m) -> findMask P (recvTable entries) m = None.
  Proof using GF.
    intros H. rewrite findMask_key. destruct (findKey (m mod 2 ^ keyBits P) entries) as [[p m']|] eqn:E; [|done]. apply findKey_Some in E. exfalso.
    pose proof E as E'. apply (gfEnt _ _ _ _ _ _ _ _ GF) in E' as (t & i & x & l & _ & _ & _ & _ & _ & Ek). apply (H p m'); [|done]. rewrite <- Ek. exact E.
  Qed.
  Lemma key_trunc m : keyOf P (m mod 2 ^ (8 * pMask P)) = keyOf P m.
  Proof. unfold keyOf. apply mod_mod_pow. lia. Qed.

  Lemma grr_common U i x t s : grrCollisionFree P lR lS U -> (forall x, x ∈ R -> x ∈ U) -> R !! i = Some x -> inThr P t (itemBin P x) -> (s < ld lS (itemBin P x))%nat ->
    findMask P (recvTable entries) (fullG P lR lS t (slotR i) s x mod 2 ^ (8 * pMask P)) = Some (N.of_nat i).
  Proof using HR GF ND HcapS.
    pose proof HR as (Hn & Hnb & Hcap & HT & HM & Hw & HLR & HCR). intros CF HU Ex It Hs. clear HcapR.
    rewrite (grr_find_entry U (i * pCap P + s)); [|done|done|].
    2:{ apply (gfEnt _ _ _ _ _ _ _ _ GF). exists t, i, x, s. done. }
    do 2 f_equal. specialize (HcapS (itemBin P x)). rewrite Nat.add_comm, Nat.div_add by lia. rewrite Nat.div_small by lia. done.
  Qed.

  Lemma grr_other U y t l s : grrCollisionFree P lR lS U -> (forall x, x ∈ R -> x ∈ U) -> y ∈ U -> inThr P t (itemBin P y) -> (l < ld lR (itemBin P y))%nat -> (s < ld lS (itemBin P y))%nat ->
    (forall i, R !! i = Some y -> slotR i <> l) -> findMask P (recvTable entries) (fullG P lR lS t l s y mod 2 ^ (8 * pMask P)) = None.
  Proof using HR GF ND.
    pose proof HR as (Hn & Hnb & Hcap & HT & HM & Hw & HLR & HCR). intros CF HU Hy It Hl Hs HN. clear HcapR. apply grr_find_none. intros p m' He E. rewrite key_trunc in E.
    apply (gfEnt _ _ _ _ _ _ _ _ GF) in He as (t' & i & x & l' & Ex & It' & Hl' & -> & -> & _).
    destruct (grr_inj P lR lS U t' t (slotR i) l' l s x y HT Hw CF) as (-> & E1 & _); try done.
    - apply HU. by eapply elem_of_list_lookup_2.
    - by apply (gfSlot _ _ _ _ _ _ _ _ GF).
    - by apply (HN i).
  Qed.

  Lemma omap_nil {A B} (f : A -> option B) ls : (forall m, m ∈ ls -> f m = None) -> omap f ls = [].
  Proof. induction ls as [|a ls IH]; intros H; [done|]. cbn. rewrite H by left. apply IH. intros m Hm. apply H. by right. Qed.

  Lemma grr_all U : grrCollisionFree P lR lS U -> (forall x, x ∈ R -> x ∈ U) -> (forall x, x ∈ S -> x ∈ U) ->
    omap (findMask P (recvTable entries)) rows ≡ₚ commonPositions R S.
  Proof using HR HS GF ND HcapS.
    pose proof HR as (Hn & Hnb & Hcap & HT & HM & Hw & HLR & HCR). intros CF HUR HUS. clear HcapR. destruct (gfRows _ _ _ _ _ _ _ _ GF) as (row & HP & ROW).
    rewrite (omap_perm _ _ _ HP), omap_concat, map_map.
    assert (forall j y, S !! j = Some y -> omap (findMask P (recvTable entries)) (row j) = match posIn R y with Some p => [p] | None => [] end) as RW.
    { intros j y Ey. destruct (inThr_exists P HT Hw (itemBin P y) (itemBin_lt P y Hnb)) as [t It]. destruct (ROW j y t Ey It) as (s & Hs & ->).
      assert (y ∈ U) as Hy by (apply HUS; by eapply elem_of_list_lookup_2).
      unfold posIn. destruct (list_find (fun x => x = y) R) as [[i x]|] eqn:EF.
      - apply list_find_Some in EF as (Ex & -> & _). pose proof (gfSlot _ _ _ _ _ _ _ _ GF _ _ Ex) as Sx.
        replace (ld lR (itemBin P y)) with (slotR i + (1 + (ld lR (itemBin P y) - slotR i - 1)))%nat by lia. rewrite !seq_app, !map_app, !omap_app. cbn [seq map Nat.add].
        rewrite (omap_nil _ (map _ (seq 0 (slotR i)))).
        2:{ intros m Hm. apply elem_of_list_fmap in Hm as (l & -> & Hl). apply elem_of_seq in Hl. apply (grr_other U); [done|done|done|done|lia|done|].
            intros i' Ex'. rewrite (NoDup_lookup R i' i y ND Ex' Ex). lia. }
        rewrite (omap_nil _ (map _ (seq (slotR i + 1) _))).
        2:{ intros m Hm. apply elem_of_list_fmap in Hm as (l & -> & Hl). apply elem_of_seq in Hl. apply (grr_other U); [done|done|done|done|lia|done|].
            intros i' Ex'. rewrite (NoDup_lookup R i' i y ND Ex' Ex). lia. }
        cbn [omap list_omap app]. by rewrite (grr_common U i y t s CF HUR Ex It Hs).
      - apply list_find_None in EF. rewrite Forall_forall in EF. apply omap_nil. intros m Hm. apply elem_of_list_fmap in Hm as (l & -> & Hl). apply elem_of_seq in Hl.
        apply (grr_other U); [done|done|done|done|lia|done|]. intros i Ei. exfalso. apply (EF y); [by eapply elem_of_list_lookup_2|done]. }
    unfold commonPositions.
    assert (map (fun j => omap (findMask P (recvTable entries)) (row j)) (seq 0 (length S)) = map (fun y => match posIn R y with Some p => [p] | None => [] end) S) as ->.
    { apply list_eq. intros j. rewrite (list_lookup_fmap (fun j => omap _ (row j))), (list_lookup_fmap (fun y => match posIn R y with Some p => [p] | None => [] end)).
      destruct (decide (j < length S)%nat) as [H|H].
      - rewrite lookup_seq_lt by done. destruct (lookup_lt_is_Some_2 S j H) as [y Ey]. rewrite Ey. cbn. f_equal. by apply RW.
      - rewrite lookup_seq_ge, (lookup_ge_None_2 S) by lia. done. }
    clear. induction S as [|y S' IH]; [done|]. cbn. unfold posIn at 1. destruct (list_find (fun x => x = y) R) as [[i x]|]; cbn; [by f_equiv|done].
  Qed.

  Lemma grr_member U i x : grrCollisionFree P lR lS U -> (forall x, x ∈ R -> x ∈ U) -> R !! i = Some x -> x ∈ S -> N.of_nat i ∈ omap (findMask P (recvTable entries)) rows.
  Proof using HR GF ND HcapS.
    pose proof HR as (Hn & Hnb & Hcap & HT & HM & Hw & HLR & HCR). intros CF HUR Ex Hx. clear HcapR HS. apply elem_of_list_lookup in Hx as [j Ey].
    destruct (gfRows _ _ _ _ _ _ _ _ GF) as (row & HP & ROW). destruct (inThr_exists P HT Hw (itemBin P x) (itemBin_lt P x Hnb)) as [t It]. destruct (ROW j x t Ey It) as (s & Hs & Er).
    apply elem_of_list_omap. eexists. split; [|exact (grr_common U i x t s CF HUR Ex It Hs)]. rewrite HP. apply elem_of_concat. exists (row j). split.
    - rewrite Er. apply elem_of_list_fmap. exists (slotR i). split; [done|]. apply elem_of_seq. pose proof (gfSlot _ _ _ _ _ _ _ _ GF _ _ Ex). lia.
    - apply (elem_of_list_fmap_1 row). apply elem_of_seq. apply lookup_lt_Some in Ey. lia.
  Qed.

  Lemma rows_length : (length rows <= length S * pCap P)%nat.
  Proof using HR GF HcapR.
    clear HcapS HS.
    pose proof HR as (Hn & Hnb & Hcap & HT & HM & Hw & HLR & HCR). destruct (gfRows _ _ _ _ _ _ _ _ GF) as (row & HP & ROW). rewrite HP.
    assert (forall js, (forall j, j ∈ js -> (j < length S)%nat) -> (length (concat (map row js)) <= length js * pCap P)%nat) as G.
    { induction js as [|j js IH]; intros H; [done|]. cbn. rewrite app_length. destruct (lookup_lt_is_Some_2 S j (H j ltac:(left))) as [y Ey].
      destruct (inThr_exists P HT Hw (itemBin P y) (itemBin_lt P y Hnb)) as [t It]. destruct (ROW j y t Ey It) as (s & _ & ->). rewrite map_length, seq_length.
      specialize (IH ltac:(intros j' H'; apply H; by right)). specialize (HcapR (itemBin P y)). lia. }
    etrans; [apply G|by rewrite seq_length]. intros j Hj. apply elem_of_seq in Hj. lia.
  Qed.
End Results.

Lemma channels_all {A} (all : list A) T : (0 < T)%nat -> N.of_nat (length all) * N.of_nat T < 2 ^ 64 ->
  concat (map (fun t => omap (fun k => all !! k) (idxRange (length all) T t)) (seq 0 T)) = all.
Proof.
  intros HT Hw. rewrite <- (map_map (idxRange (length all) T) (omap (fun k => all !! k))), <- omap_concat.
  change (@idxRange) with Ecdh_Model.idxRange. rewrite (idxRange_concat (length all) T HT Hw). by apply omap_lookup_seq.
Qed.

Lemma grr_run P rd ownR lS R S old : let lR := recvLoads ownR lS in
  paramsOk P R -> paramsOk P S -> 0 < pMask P -> loadsOk P R ownR -> loadsOk P S lS -> grrRandOk P lR lS rd -> (0 <= gSurplus rd)%Z -> rowsFit P rd ->
  (forall x, x ∈ R -> 0 ∉ map (keyOf P) (grrMasks P lR lS x)) ->
  exists entries rows slotR new, grrFacts P lR lS R S entries rows slotR /\
    grrRun P rd ownR lS R S old = Done (mkResult (old ++ new) (inputsAfter P R) (inputsAfter P S)) /\
    new ≡ₚ omap (findMask P (recvTable entries)) rows ++ omap (findMask P (recvTable entries)) (map (gPad rd) (seq 0 (Z.to_nat (gSurplus rd)))).
Proof.
  intros lR HR HS HMp HLR HLS HD HSur HF HZ. pose proof HR as (Hn & Hnb & Hcap & HT & HM & Hw & HLenR & HCR).
  destruct (grr_facts P rd ownR lS R S old HR HS HMp HLR HLS HD HSur HZ) as (entries & rows & slotR & GF & E). exists entries, rows, slotR. eexists. split; [exact GF|]. split; [exact E|].
  cbv zeta. set (all := rows ++ map (gPad rd) (seq 0 (Z.to_nat (gSurplus rd)))). rewrite <- omap_app. fold all.
  destruct HD as (_ & _ & _ & _ & _ & _ & D7). rewrite (Permutation_concat_map _ _ _ D7).
  rewrite <- (map_map (fun t => omap (fun k => all !! k) (idxRange (length all) (pT P) t)) (omap (findMask P (recvTable entries)))), <- omap_concat.
  rewrite channels_all; [done|done|]. assert (length all <= pN P * pCap P + Z.to_nat (gSurplus rd))%nat as HL.
  { unfold all. rewrite app_length, map_length, seq_length. apply Nat.add_le_mono_r. destruct HS as (_ & _ & _ & _ & _ & _ & HLenS & _). rewrite <- HLenS. 
    apply (rows_length P lR lS R S entries rows slotR HR GF). intros b. pose proof (recvLoads_ok P R S ownR lS HLR HLS) as [L K]. unfold ld. fold lR in L, K.
    destruct (lR !! b) as [l|] eqn:El; [apply (K b l El)|cbn; lia]. }
  unfold rowsFit in HF. eapply N.le_lt_trans; [|exact HF]. apply N.mul_le_mono_r. lia.
Qed.

Lemma cf_zero P lR lS U x : grrCollisionFree P lR lS U -> x ∈ U -> 0 ∉ map (keyOf P) (grrMasks P lR lS x).
Proof.
  intros [_ Z] Hx H. apply Z. rewrite <- concat_map_map, map_map. apply elem_of_concat. eexists. split; [exact H|]. by apply (elem_of_list_fmap_1 (fun x => map (keyOf P) (grrMasks P lR lS x))).
Qed.

Lemma ld_cap P items loads b : loadsOk P items loads -> (ld loads b <= pCap P)%nat.
Proof. intros [L K]. unfold ld. destruct (loads !! b) as [l|] eqn:E; [by apply (K b)|cbn; lia]. Qed.

Lemma grr_complete P rd ownR lS R S old i x :
  paramsOk P R -> paramsOk P S -> 0 < pMask P -> loadsOk P R ownR -> loadsOk P S lS -> grrRandOk P (recvLoads ownR lS) lS rd -> (0 <= gSurplus rd)%Z -> rowsFit P rd ->
  NoDup R -> grrCollisionFree P (recvLoads ownR lS) lS R -> R !! i = Some x -> x ∈ S ->
  exists new inR inS, grrRun P rd ownR lS R S old = Done (mkResult (old ++ new) inR inS) /\ N.of_nat i ∈ new.
Proof.
  intros HR HS HMp HLR HLS HD HSur HF ND CF Ex Hx.
  destruct (grr_run P rd ownR lS R S old HR HS HMp HLR HLS HD HSur HF) as (entries & rows & slotR & new & GF & E & HN); [intros y Hy; by apply (cf_zero P _ lS R)|].
  exists new, (inputsAfter P R), (inputsAfter P S). split; [exact E|]. rewrite HN. apply elem_of_app. left.
  apply (grr_member P _ lS R S entries rows slotR HR GF ND (fun b => ld_cap P S lS b HLS) R i x CF); done.
Qed.

Lemma grr_exact P rd ownR lS R S old :
  paramsOk P R -> paramsOk P S -> 0 < pMask P -> loadsOk P R ownR -> loadsOk P S lS -> grrRandOk P (recvLoads ownR lS) lS rd -> (0 <= gSurplus rd)%Z -> rowsFit P rd ->
  NoDup R -> grrCollisionFree P (recvLoads ownR lS) lS (remove_dups (R ++ S)) -> padMisses P (recvLoads ownR lS) lS R rd ->
  exists new inR inS, grrRun P rd ownR lS R S old = Done (mkResult (old ++ new) inR inS) /\ new ≡ₚ commonPositions R S.
Proof.
  intros HR HS HMp HLR HLS HD HSur HF ND CF HP. pose proof HR as (Hn & Hnb & Hcap & HT & HM & Hw & HLenR & HCR).
  assert (forall x, x ∈ R -> x ∈ remove_dups (R ++ S)) as HUR by (intros x Hx; apply elem_remove_dups_app; by left).
  assert (forall x, x ∈ S -> x ∈ remove_dups (R ++ S)) as HUS by (intros x Hx; apply elem_remove_dups_app; by right).
  destruct (grr_run P rd ownR lS R S old HR HS HMp HLR HLS HD HSur HF) as (entries & rows & slotR & new & GF & E & HN); [intros y Hy; apply (cf_zero P _ lS _ y CF); by apply HUR|].
  exists new, (inputsAfter P R), (inputsAfter P S). split; [exact E|]. rewrite HN.
  rewrite (grr_all P _ lS R S entries rows slotR HR HS GF ND (fun b => ld_cap P S lS b HLS) _ CF HUR HUS).
  rewrite (omap_nil _ (map (gPad rd) _)); [by rewrite app_nil_r|]. intros m Hm. apply elem_of_list_fmap in Hm as (k & -> & Hk). apply elem_of_seq in Hk.
  apply (grr_find_none P _ lS R S entries rows slotR GF). intros p m' He EK. apply (HP k ltac:(lia)). rewrite <- EK.
  apply (gfEnt _ _ _ _ _ _ _ _ GF) in He as (t & i & x & l & Ex & It & Hl & _ & -> & _). apply (elem_of_list_fmap_1 (keyOf P)). apply elem_of_concat. eexists. split.
  - apply grr_in; [done|done|exact It| |exact Hl]. by apply (gfSlot _ _ _ _ _ _ _ _ GF).
  - apply (elem_of_list_fmap_1 (grrMasks P (recvLoads ownR lS) lS)). by eapply elem_of_list_lookup_2.
Qed.

Lemma grr_inputs P rd ownR lS R S old res : pHash P = true -> grrRun P rd ownR lS R S old = Done res \/ grrRun P rd ownR lS R S old = Thrown res -> resR res = R /\ resS res = S.
Proof.
  intros HH. unfold grrRun. destruct (_ || _); [intros [?|E]; [done|injection E as <-; done]|]. destruct (16 <? pMask P); [intros [?|E]; [done|injection E as <-; done]|].
  destruct (pMask P =? 0); [intros []; done|]. destruct (mkBins P R _); [|intros []; done]. destruct (mkBins P S _); [|intros []; done].
  destruct (mapM _ _); [|intros []; done]. destruct (mapM _ _); [|intros []; done]. cbv zeta. destruct (existsb _ lS); [intros []; done|]. destruct (existsb _ _); [intros []; done|].
  destruct (_ <? 0)%Z; [intros []; done|].
  intros [E|?]; [injection E as <-|done]. cbn [resR resS]. unfold inputsAfter. rewrite HH. done.
Qed.

(** ** Loads computed by the threads *)

Lemma Forall2_concat_map {A B} (Q : A -> B -> Prop) (f : nat -> list A) (g : nat -> list B) ts : (forall t, t ∈ ts -> Forall2 Q (f t) (g t)) -> Forall2 Q (concat (map f ts)) (concat (map g ts)).
Proof. induction ts as [|t ts IH]; intros H; [constructor|]. cbn. apply Forall2_app; [apply H; left|]. apply IH. intros t' Ht'. apply H. by right. Qed.

Lemma threads_loads P items c noise ls tot : paramsOk P items -> N.of_nat (pNb P) < 2 ^ 56 -> cBinCap c = N.of_nat (pCap P) -> cMax c <= cBinCap c -> cCw c = (-1)%Z ->
  (forall v, head (cTable c) = Some v -> v <= cBinCap c) -> (cLap c = false -> cOneSided c = true -> forall t i, (0 <= noise t i)%Z) ->
  (forall t, (t < pT P)%nat -> computeLoads c (noise t) (threadSizes P items t) = Done (ls t, tot t)) ->
  loadsOk P items (map N.to_nat (concat (map ls (seq 0 (pT P))))).
Proof.
  intros HP Hnb2 HCc HMc HCw HTb HNs HL. pose proof HP as (Hn & Hnb & Hcap & HT & HM & Hw & HLen & HC).
  assert (forall t, (t < pT P)%nat -> Forall (fun s => s <= cBinCap c) (threadSizes P items t)) as HSz.
  { intros t Ht. unfold threadSizes. apply Forall_lookup_2. intros i s Hs. apply elem_of_list_lookup_2, elem_of_list_fmap in Hs as (b & -> & _). rewrite HCc. specialize (HC b). lia. }
  assert (Forall2 (fun s l => s <= l <= cBinCap c) (concat (map (threadSizes P items) (seq 0 (pT P)))) (concat (map ls (seq 0 (pT P))))) as F.
  { apply Forall2_concat_map. intros t Ht. apply elem_of_seq in Ht. specialize (HL t ltac:(lia)).
    destruct (loads_partial c (noise t) _ (ls t) (tot t) HL) as [F _]; [|apply HSz; lia|by right; left|intros ? ? ?; by apply HNs|].
    - unfold threadSizes. rewrite map_length. eapply N.le_lt_trans; [|exact Hnb2]. 
      assert (length (idxRange (pNb P) (pT P) t) <= pNb P)%nat as L; [|lia].
      assert (length (concat (map (idxRange (pNb P) (pT P)) (seq 0 (pT P)))) = pNb P) as LL.
      { change (@idxRange) with Ecdh_Model.idxRange. by rewrite (idxRange_concat (pNb P) (pT P) HT Hw), seq_length. }
      assert (idxRange (pNb P) (pT P) t ∈ map (idxRange (pNb P) (pT P)) (seq 0 (pT P))) as HI by (apply elem_of_list_fmap; exists t; split; [done|apply elem_of_seq; lia]).
      apply elem_of_list_split in HI as (a & b & EE). rewrite EE, concat_app, app_length in LL. cbn [concat] in LL. rewrite app_length in LL. lia.
    - pose proof (loads_cap c (noise t) _ (ls t) (tot t) HL HCw ltac:(apply HSz; lia) HMc HTb) as F2. apply Forall2_same_length_lookup. split; [by eapply Forall2_length|].
      intros i s l Hs Hl. pose proof (Forall2_lookup_lr _ _ _ _ _ _ F Hs Hl) as [H _]. rewrite Forall_lookup in F2. specialize (F2 i l Hl). done. }
  assert (concat (map (threadSizes P items) (seq 0 (pT P))) = map (fun b => N.of_nat (load P items b)) (seq 0 (pNb P))) as ES.
  { unfold threadSizes. rewrite <- (map_map (idxRange (pNb P) (pT P)) (map (fun b => N.of_nat (load P items b)))), concat_map_map. change (@idxRange) with Ecdh_Model.idxRange.
    by rewrite (idxRange_concat (pNb P) (pT P) HT Hw). }
  rewrite ES in F. split.
  - apply Forall2_length in F. rewrite map_length, seq_length in F. rewrite map_length. done.
  - intros b l Hb. rewrite (list_lookup_fmap N.to_nat) in Hb. destruct (concat (map ls (seq 0 (pT P))) !! b) as [l'|] eqn:El; [|done]. cbn in Hb. injection Hb as <-.
    destruct (Forall2_lookup_r _ _ _ _ _ F El) as (s & Hs & H). rewrite (list_lookup_fmap (fun b => N.of_nat (load P items b))) in Hs. destruct (seq 0 (pNb P) !! b) as [b'|] eqn:Eb; [|done].
    apply lookup_seq in Eb as [-> _]. cbn in Hs. injection Hs as <-. rewrite HCc in H. lia.
Qed.
