(** Lemmas about RR17a with several channels. *)
From Verif Require Import Base Partition_Model Dcw_Spec Dcw_Proofs Ecdh_Proofs Rr17_Model Rr17_Proofs Rr17a_Model Rr17a_Spec Rr17a_Proofs Rr17aChan_Spec.

Local Arguments nco : simpl never.
Local Arguments itemBin : simpl never.
Local Arguments masksPer : simpl never.
Local Arguments numChunks : simpl never.

(** ** Chunks *)

Lemma chunk_elem {A} per (buf : list A) c q m : (0 < per)%nat -> buf !! q = Some m -> (q / per = c)%nat -> m ∈ chunk per buf c.
Proof.
  intros Hp Hq <-. apply elem_of_list_lookup. exists (q mod per)%nat. unfold chunk. rewrite lookup_take by (apply Nat.mod_upper_bound; lia). rewrite lookup_drop.
  rewrite Nat.mul_comm, <- Nat.div_mod by lia. done.
Qed.
Lemma elem_chunk {A} per (buf : list A) c m : (0 < per)%nat -> m ∈ chunk per buf c -> exists q, buf !! q = Some m /\ (q / per = c)%nat.
Proof.
  intros Hp H. apply elem_of_list_lookup in H as [k Hk]. unfold chunk in Hk. apply lookup_take_Some in Hk as [Hk Lk]. rewrite lookup_drop in Hk.
  exists (c * per + k)%nat. split; [done|]. rewrite Nat.add_comm, Nat.div_add by lia. rewrite Nat.div_small by lia. done.
Qed.
Lemma channel_elem {A} per chunks T (buf : list A) t m : (0 < per)%nat -> (length buf <= chunks * per)%nat ->
  m ∈ channelChunks per chunks T buf t <-> exists q, buf !! q = Some m /\ ((q / per) mod T = t)%nat.
Proof.
  intros Hp HL. unfold channelChunks. split.
  - intros H. apply elem_of_concat in H as (l & Hm & H). apply elem_of_list_fmap in H as (c & -> & Hc). apply elem_of_list_filter in Hc as [Hc _].
    apply elem_chunk in Hm as (q & Hq & <-); [|done]. by exists q.
  - intros (q & Hq & Ht). apply elem_of_concat. exists (chunk per buf (q / per)). split; [by apply (chunk_elem _ _ _ q)|].
    apply (elem_of_list_fmap_1 (chunk per buf)). apply elem_of_list_filter. split; [done|]. apply elem_of_seq. split; [apply Nat.le_0_l|].
    apply lookup_lt_Some in Hq. cbn. apply Nat.div_lt_upper_bound; [lia|]. rewrite Nat.mul_comm. lia.
Qed.

Lemma one_chan {A} (l : list A) T : (0 < T)%nat -> concat (map (fun t => if (t =? 0)%nat then l else []) (seq 0 T)) = l.
Proof.
  intros HT. destruct T as [|T]; [lia|]. cbn [seq map concat Nat.eqb].
  assert (forall a, concat (map (fun t => if (t =? 0)%nat then l else []) (seq (S a) T)) = []) as ->; [|by rewrite app_nil_r].
  clear. induction T as [|T IH]; intros a; [done|]. cbn. apply IH.
Qed.

(** ** The threads' bins *)

Lemma owns_unique nb T t t' b : (0 < T)%nat -> ownsBin nb T t b -> ownsBin nb T t' b -> t = t'.
Proof.
  intros HT [H1 H2] [H3 H4]. destruct (Nat.lt_trichotomy t t') as [H|[H|H]]; [|done|].
  - pose proof (Nat.div_le_mono ((t + 1) * nb) (t' * nb) T ltac:(lia) ltac:(nia)). lia.
  - pose proof (Nat.div_le_mono ((t' + 1) * nb) (t * nb) T ltac:(lia) ltac:(nia)). lia.
Qed.
Lemma places_owns cap nb T t b base : (0 < T)%nat -> N.of_nat nb * N.of_nat T < 2 ^ 64 -> (t, b, base) ∈ places cap nb T -> (t < T)%nat /\ ownsBin nb T t b.
Proof.
  intros HT Hw H. unfold places in H. apply elem_of_concat in H as (l & Hl & H). apply elem_of_list_fmap in H as (t' & -> & Ht). pose proof (placesOf_fst _ _ _ _ _ Hl) as E.
  cbn in E. subst t'. apply elem_of_seq in Ht. split; [lia|]. unfold placesOf in Hl. apply elem_of_lookup_imap_1 in Hl as (k & b' & E & Hk). injection E as <- _.
  apply elem_of_list_lookup_2 in Hk. unfold idxRange, evenSplit in Hk. change two64 with (2 ^ 64) in Hk. rewrite !N.mod_small in Hk by nia. apply elem_of_seq in Hk.
  unfold ownsBin. replace (t * nb / T)%nat with (N.to_nat (N.of_nat nb * N.of_nat t / N.of_nat T)).
  - replace ((t + 1) * nb / T)%nat with (N.to_nat (N.of_nat nb * (N.of_nat t + 1) / N.of_nat T)); [lia|].
    rewrite N2Nat.inj_div, N2Nat.inj_mul, N2Nat.inj_add, !Nat2N.id. f_equal. change (N.to_nat 1) with 1%nat. lia.
  - rewrite N2Nat.inj_div, N2Nat.inj_mul, !Nat2N.id. f_equal. lia.
Qed.
Lemma owns_places cap nb T t b : (0 < T)%nat -> N.of_nat nb * N.of_nat T < 2 ^ 64 -> (b < nb)%nat -> ownsBin nb T t b ->
  exists base, (t, b, base) ∈ places cap nb T /\ (t < T)%nat /\ (t, b, base) ∈ placesOf cap nb T t.
Proof.
  intros HT Hw Hb HO. destruct (places_exists cap nb T b HT Hw Hb) as (t' & base & H1 & H2 & H3). destruct (places_owns _ _ _ _ _ _ HT Hw H1) as [_ HO'].
  rewrite (owns_unique nb T t t' b HT HO HO'). by exists base.
Qed.

(** A buffer of equal rows. *)
Lemma rows_lookup {A} (rows : list (list A)) cap p l r m : (forall r, r ∈ rows -> length r = cap) -> rows !! p = Some r -> r !! l = Some m ->
  concat rows !! (p * cap + l)%nat = Some m.
Proof.
  intros HL. revert p. induction rows as [|r0 rows IH]; intros p Hp Hl; [done|]. cbn [concat]. assert (length r0 = cap) as L0 by (apply HL; left). destruct p as [|p].
  - cbn in Hp. injection Hp as ->. by apply lookup_app_l_Some.
  - cbn in Hp. rewrite lookup_app_r by lia. rewrite L0. replace (S p * cap + l - cap)%nat with (p * cap + l)%nat by lia. apply IH; [|done|done]. intros r1 H1. apply HL. by right.
Qed.
Lemma lookup_rows {A} (rows : list (list A)) cap q m : (forall r, r ∈ rows -> length r = cap) -> concat rows !! q = Some m ->
  exists p l r, q = (p * cap + l)%nat /\ rows !! p = Some r /\ r !! l = Some m.
Proof.
  intros HL. revert q. induction rows as [|r0 rows IH]; intros q Hq; [done|]. cbn [concat] in Hq. assert (length r0 = cap) as L0 by (apply HL; left).
  apply lookup_app_Some in Hq as [Hq|[Hlt Hq]].
  - exists 0%nat, q, r0. done.
  - destruct (IH ltac:(intros r1 H1; apply HL; by right) _ Hq) as (p & l & r & E & Hp & Hl). exists (S p), l, r. split; [lia|done].
Qed.

(** ** The run with the permutation of the rows left open *)

Section run.
  Context (P : params) (rd : rand) (R S old : list N).
  Hypothesis (HR : paramsOk P R) (HS : paramsOk P S) (HD : randOk P rd).

  Lemma run_facts2 : exists binsR masksR js row res, runFacts P rd R S old binsR masksR js row res /\ (forall j, j ∈ js -> length (row j) = pCap P) /\
    forall perm, perm ≡ₚ seq 0 (pN P) -> exists rows, length rows = pN P /\ (forall k p j, perm !! k = Some p -> js !! k = Some j -> rows !! p = Some (row j)) /\
      rr17aRun P (withPerm rd perm) R S old = Done (mkResult (old ++ concat (map (fun t => omap (findMask P (recvTable (recvEntries P (map (nco P) R) masksR binsR t)))
        (channelChunks (N.to_nat (masksPer (N.of_nat (pN P * pCap P)) (N.of_nat (pT P)))) (N.to_nat (numChunks (N.of_nat (pN P * pCap P)) (N.of_nat (pT P)))) (pT P) (concat rows) t)) (rOut rd)))
        (inputsAfter P R) (inputsAfter P S)).
  Proof using HR HS HD.
    pose proof HR as (Hn & Hnb & Hcap & HT & HM & Hw & HLR & HCR). pose proof HS as (_ & _ & _ & _ & _ & _ & HLS & HCS).
    destruct HD as (D1 & D2 & D3 & D4 & D5 & D6). destruct (mkBins_ok P R _ HR D3) as (binsR & ER & OR). destruct (mkBins_ok P S _ HS D4) as (binsS & ES & OS).
    assert (forall bins items t b base, binsOk P items bins -> (forall b, (load P items b <= pCap P)%nat) -> (t < pT P)%nat -> (t, b, base) ∈ placesOf (pCap P) (pNb P) (pT P) t ->
      exists bin, bins !! b = Some bin /\ (length bin <= pCap P)%nat) as BIN.
    { intros bins items t b base O HC Ht Hpl. assert (b < pNb P)%nat as Hb.
      { assert (b ∈ seq 0 (pNb P)) as Hb; [|apply elem_of_seq in Hb; lia]. rewrite <- (places_bins (pCap P) (pNb P) (pT P) HT Hw).
        apply elem_of_list_fmap. exists (t, b, base). split; [done|]. unfold places. apply elem_of_concat. eexists. split; [exact Hpl|].
        apply elem_of_list_fmap. exists t. split; [done|]. apply elem_of_seq. lia. }
      destruct (binsOk_elem P items bins b 0 O Hb) as (bin & E & _). exists bin. split; [done|]. by eapply binsOk_length. }
    set (fR := fun t => recvAssign (pCap P) (rDraw rd) binsR (placesOf (pCap P) (pNb P) (pT P) t) (seq 0 (pCap P))).
    set (fS := fun t => sendAssign (rShuf rd) binsS (placesOf (pCap P) (pNb P) (pT P) t)).
    assert (forall t, (t < pT P)%nat -> exists parts, fR t = Some (concat parts) /\ Forall2 (partOk (pCap P) binsR) (placesOf (pCap P) (pNb P) (pT P) t) parts) as AR.
    { intros t Ht. apply recvAssign_ok; [done|]. intros t' b base H. pose proof (placesOf_fst _ _ _ _ _ H) as E. cbn in E. subst t'. by eapply BIN. }
    assert (forall t, (t < pT P)%nat -> exists parts, fS t = Some (concat parts) /\ Forall2 (partOk (pCap P) binsS) (placesOf (pCap P) (pNb P) (pT P) t) parts) as AS.
    { intros t Ht. apply sendAssign_ok; [done|]. intros t' b base H. pose proof (placesOf_fst _ _ _ _ _ H) as E. cbn in E. subst t'. by eapply BIN. }
    set (gR := fun t => default [] (fR t)). set (gS := fun t => default [] (fS t)).
    assert (mapM fR (seq 0 (pT P)) = Some (map gR (seq 0 (pT P)))) as EAR.
    { apply mapM_total. intros t Ht. apply elem_of_seq in Ht. destruct (AR t ltac:(lia)) as (parts & E & _). unfold gR. by rewrite E. }
    assert (mapM fS (seq 0 (pT P)) = Some (map gS (seq 0 (pT P)))) as EAS.
    { apply mapM_total. intros t Ht. apply elem_of_seq in Ht. destruct (AS t ltac:(lia)) as (parts & E & _). unfold gS. by rewrite E. }
    set (masksR := threadMasks (pEncR P) (map (nco P) R) (map gR (seq 0 (pT P))) (replicate (pN P) 0)).
    set (masksS := threadMasks (pEncS P) (map (nco P) S) (map gS (seq 0 (pT P))) (replicate (pN P) 0)).
    set (trunc := fun m => m mod 2 ^ (8 * pMask P)).
    assert (forall t, (t < pT P)%nat -> exists parts, gR t = concat parts /\ Forall2 (partOk (pCap P) binsR) (placesOf (pCap P) (pNb P) (pT P) t) parts) as AR'.
    { intros t Ht. destruct (AR t Ht) as (parts & E & F). exists parts. split; [|done]. unfold gR. by rewrite E. }
    assert (forall t, (t < pT P)%nat -> exists parts, gS t = concat parts /\ Forall2 (partOk (pCap P) binsS) (placesOf (pCap P) (pNb P) (pT P) t) parts) as AS'.
    { intros t Ht. destruct (AS t Ht) as (parts & E & F). exists parts. split; [|done]. unfold gS. by rewrite E. }
    pose proof (party_masks P R binsR (pEncR P) (map (nco P) R) gR HR OR AR') as MR. pose proof (party_masks P S binsS (pEncS P) (map (nco P) S) gS HS OS AS') as MS.
    set (row := fun j => match list_find (fun pl : nat * nat * nat => pl.1.2 = itemBin P (default 0 (S !! j))) (places (pCap P) (pNb P) (pT P)) with
                         | Some (_, (t, _, base)) => map trunc (itemMasks (pEncR P) (pCap P) (map (nco P) S) masksS t base j) | None => [] end).
    assert (forall t b base j y, (t, b, base) ∈ places (pCap P) (pNb P) (pT P) -> S !! j = Some y -> itemBin P y = b ->
      row j = map trunc (itemMasks (pEncR P) (pCap P) (map (nco P) S) masksS t base j)) as ROW.
    { intros t b base j y Hpl Hj Hb. unfold row. rewrite Hj. cbn [default]. unfold id. rewrite Hb.
      destruct (list_find (fun pl : nat * nat * nat => pl.1.2 = b) (places (pCap P) (pNb P) (pT P))) as [[k [[t' b'] base']]|] eqn:E.
      - apply list_find_Some in E as (Ek & E & _). cbn in E. subst b'. destruct (places_unique _ _ _ _ _ _ _ _ HT Hw Hpl (elem_of_list_lookup_2 _ _ _ Ek)) as [-> ->]. done.
      - apply list_find_None in E. rewrite Forall_forall in E. exfalso. by apply (E _ Hpl). }
    set (js := concat (map (fun pl : nat * nat * nat => default [] (binsS !! pl.1.2)) (rPlaces rd))).
    assert (js ≡ₚ seq 0 (pN P)) as HJ.
    { unfold js. rewrite <- HLS. apply (binsOk_all P S binsS); [done|done|]. rewrite (Permutation_map _ D5), places_bins by done. done. }
    assert (sendRows P (map (nco P) S) masksS binsS (rPlaces rd) = map row js) as ESR.
    { unfold sendRows, js. rewrite <- concat_map_map, map_map. f_equal. apply map_ext_in. intros [[t b] base] Hpl. cbn [fst snd]. apply map_ext_in. intros j Hj.
      apply elem_of_list_In in Hpl, Hj. rewrite D5 in Hpl. assert (b < pNb P)%nat as Hb.
      { assert (b ∈ seq 0 (pNb P)) as Hb; [|apply elem_of_seq in Hb; lia]. rewrite <- (places_bins (pCap P) (pNb P) (pT P) HT Hw). apply elem_of_list_fmap. by exists (t, b, base). }
      destruct (binsOk_elem P S binsS b j OS Hb) as (bin & Eb & _ & HI). rewrite Eb in Hj. apply HI in Hj as (y & Ey & Hy). symmetry. by apply (ROW t b base j y). }
    assert (forall t b base j y, (t, b, base) ∈ places (pCap P) (pNb P) (pT P) -> S !! j = Some y -> itemBin P y = b ->
      exists s, (s < pCap P)%nat /\ row j = map (fun l => fullMask P t base l s y mod 2 ^ (8 * pMask P)) (seq 0 (pCap P))) as ROW2.
    { intros t b base j y Hpl Hj Hb. destruct (MS t b base j y Hpl Hj Hb) as (s & Hs & Es). exists s. split; [done|]. rewrite (ROW t b base j y Hpl Hj Hb).
      unfold itemMasks. rewrite map_map. apply map_ext. intros l. fold masksS in Es. rewrite Es. rewrite (list_lookup_fmap (nco P)), Hj. done. }
    assert (forall j, j ∈ js -> length (row j) = pCap P) as LR.
    { intros j Hj. rewrite HJ in Hj. apply elem_of_seq in Hj. destruct (lookup_lt_is_Some_2 S j ltac:(lia)) as [y Hy].
      destruct (places_exists (pCap P) (pNb P) (pT P) (itemBin P y) HT Hw (itemBin_lt P y Hnb)) as (t & base & Hpl & _).
      destruct (ROW2 _ _ _ j y Hpl Hy eq_refl) as (s & _ & ->). by rewrite map_length, seq_length. }
    exists binsR, masksR, js, row. eexists. split; [|split; [exact LR|]].
    - split; [done| |done|done|].
      + intros t b base i x Hpl Hi Hb. destruct (MR t b base i x Hpl Hi Hb) as (s & Hs & Es). exists s. split; [done|]. rewrite (list_lookup_fmap (nco P)), Hi in Es. exact Es.
      + exists (fun t => if (t =? 0)%nat then concat (map row js) else []). split; [|reflexivity].
        by rewrite one_chan.
    - intros perm HP. destruct (placeRows_gen (map row js) perm (replicate (pN P) (replicate (pCap P) 0))) as (rows & EP & L & _ & A).
      + by rewrite map_length, HP, HJ.
      + rewrite HP. apply NoDup_seq.
      + intros p Hp. rewrite HP in Hp. apply elem_of_seq in Hp. rewrite replicate_length. lia.
      + rewrite replicate_length in L. exists rows. split; [done|]. split.
        { intros k p j Hk Hj. apply (A k p); [done|]. rewrite (list_lookup_fmap row), Hj. done. }
        unfold rr17aRun. rewrite HLR, HLS, Nat.eqb_refl. cbn [negb orb]. assert ((16 <? pMask P) = false) as -> by (apply N.ltb_ge; done).
        assert ((pN P * pCap P =? 0)%nat = false) as -> by (apply Nat.eqb_neq; lia). cbn [withPerm rDraw rShuf rMaskPerm rOrdR rOrdS rPlaces rOut]. rewrite ER, ES.
        fold fR. fold fS. rewrite EAR, EAS. cbv zeta. fold masksR masksS. rewrite ESR, EP. done.
  Qed.

  Definition colOf (row : nat -> list N) (binsR : list (list nat)) (masksR : list N) (j : nat) : nat :=
    match list_find (fun m => is_Some (findMask P (recvTable (allEntries P R masksR binsR)) m)) (row j) with Some (l, _) => l | None => 0%nat end.
  Definition rowOf (js : list nat) (j : nat) : nat := match list_find (fun j' => j' = j) js with Some (k, _) => k | None => 0%nat end.

  Lemma run_places : NoDup R -> collisionFree P (remove_dups (R ++ S)) -> exists row col : nat -> nat,
    (forall j, (j < pN P)%nat -> (row j < pN P)%nat /\ (col j < pCap P)%nat) /\ (forall j j', (j < pN P)%nat -> (j' < pN P)%nat -> row j = row j' -> j = j') /\
    forall perm, perm ≡ₚ seq 0 (pN P) -> exists new inR inS, rr17aRun P (withPerm rd perm) R S old = Done (mkResult (old ++ new) inR inS) /\ new ⊆+ commonPositions R S /\
      forall i, N.of_nat i ∈ new <-> exists j x p t, R !! i = Some x /\ S !! j = Some x /\ perm !! row j = Some p /\ ownsBin (pNb P) (pT P) t (itemBin P x) /\
        channelOf (pN P * pCap P) (pT P) (p * pCap P + col j) = t.
  Proof using HR HS HD.
    intros ND CF. pose proof HR as (Hn & Hnb & Hcap & HT & HM & Hw & HLR & HCR). pose proof HS as (_ & _ & _ & _ & _ & _ & HLS & HCS).
    destruct run_facts2 as (binsR & masksR & js & row & res & RF & LR & RUN).
    assert (forall x, x ∈ R -> x ∈ remove_dups (R ++ S)) as HUR by (intros x Hx; apply elem_remove_dups_app; by left).
    assert (forall x, x ∈ S -> x ∈ remove_dups (R ++ S)) as HUS by (intros x Hx; apply elem_remove_dups_app; by right).
    pose proof (rfJs _ _ _ _ _ _ _ _ _ _ RF) as HJ. assert (length js = pN P) as LJ by (by rewrite HJ, seq_length).
    pose proof (all_fun P rd R S old binsR masksR js row res HR RF _ CF ND HUR) as FA.
    assert (forall t e, (t < pT P)%nat -> e ∈ recvEntries P (map (nco P) R) masksR binsR t -> e ∈ allEntries P R masksR binsR) as SUB.
    { intros t e Ht He. unfold allEntries. apply elem_of_concat. eexists. split; [exact He|]. apply (elem_of_list_fmap_1 (recvEntries P (map (nco P) R) masksR binsR)). apply elem_of_seq. lia. }
    assert (forall j, (j < pN P)%nat -> js !! rowOf js j = Some j) as ROWOF.
    { intros j Hj. assert (j ∈ js) as Hin by (rewrite HJ; apply elem_of_seq; lia). unfold rowOf. destruct (list_find_elem_of (fun j' => j' = j) js j Hin eq_refl) as [[k j'] E]. rewrite E.
      apply list_find_Some in E as (E & -> & _). done. }
    assert (forall j l m, row j !! l = Some m -> is_Some (findMask P (recvTable (allEntries P R masksR binsR)) m) ->
      (forall l' m', row j !! l' = Some m' -> l' <> l -> findMask P (recvTable (allEntries P R masksR binsR)) m' = None) -> colOf row binsR masksR j = l) as COLOF.
    { intros j l m Hm HSm HN. unfold colOf. destruct (list_find_elem_of (fun m => is_Some (findMask P (recvTable (allEntries P R masksR binsR)) m)) (row j) m) as [[l' m'] E]; [by eapply elem_of_list_lookup_2|done|].
      rewrite E. apply list_find_Some in E as (E & HSm' & _). destruct (decide (l' = l)) as [|NE]; [done|]. rewrite (HN _ _ E NE) in HSm'. by destruct HSm'. }
    exists (rowOf js), (colOf row binsR masksR). split; [|split].
    - intros j Hj. split; [apply ROWOF, lookup_lt_Some in Hj; by rewrite LJ in Hj|]. unfold colOf.
      destruct (list_find _ (row j)) as [[l m]|] eqn:E; [|lia]. apply list_find_Some in E as (E & _). apply lookup_lt_Some in E. rewrite LR in E; [done|]. rewrite HJ. apply elem_of_seq. lia.
    - intros j j' Hj Hj' E. pose proof (ROWOF j Hj) as H. rewrite E, (ROWOF j' Hj') in H. by injection H as ->.
    - intros perm HP. destruct (RUN perm HP) as (rows & LRows & ROWS & E). eexists _, _, _. split; [exact E|].
      assert (randOk P (withPerm rd perm)) as HD' by (destruct HD as (D1 & D2 & D3 & D4 & D5 & D6); by repeat split).
      destruct (run_sub P (withPerm rd perm) R S old HR HS HD' ND CF) as (new & inR & inS & E' & HSub). rewrite E in E'. injection E' as En _ _. apply app_inv_head in En. rewrite En. split; [done|].
      rewrite <- En. clear E En HSub new inR inS HD'.
      assert (forall k j, js !! k = Some j -> exists p, perm !! k = Some p) as PK.
      { intros k j Hk. apply lookup_lt_Some in Hk. apply lookup_lt_is_Some_2. by rewrite HP, <- HJ. }
      assert (forall p r, rows !! p = Some r -> exists k j, perm !! k = Some p /\ js !! k = Some j /\ r = row j) as INV.
      { intros p r Hp. assert (p ∈ perm) as Hin by (rewrite HP; apply elem_of_seq; apply lookup_lt_Some in Hp; lia). apply elem_of_list_lookup in Hin as [k Hk].
        destruct (lookup_lt_is_Some_2 js k) as [j Hj]; [apply lookup_lt_Some in Hk; by rewrite HJ, <- HP|]. exists k, j. split; [done|]. split; [done|]. rewrite (ROWS k p j Hk Hj) in Hp. by injection Hp. }
      assert (forall r, r ∈ rows -> length r = pCap P) as LRow.
      { intros r Hr. apply elem_of_list_lookup in Hr as [p Hp]. destruct (INV p r Hp) as (k & j & _ & Hj & ->). apply LR. by eapply elem_of_list_lookup_2. }
      assert (length (concat rows) = pN P * pCap P)%nat as LC.
      { rewrite <- LRows. clear -LRow. induction rows as [|r rows IH]; [done|]. cbn. rewrite app_length, IH, (LRow r); [lia|left|]. intros r' H. apply LRow. by right. }
      set (per := N.to_nat (masksPer (N.of_nat (pN P * pCap P)) (N.of_nat (pT P)))). set (chunks := N.to_nat (numChunks (N.of_nat (pN P * pCap P)) (N.of_nat (pT P)))).
      assert (0 < per)%nat as Hper.
      { assert (0 < masksPer (N.of_nat (pN P * pCap P)) (N.of_nat (pT P))) as H; [|unfold per; lia]. unfold masksPer. apply N.min_glb_lt; [done|]. apply N.div_str_pos. nia. }
      assert (length (concat rows) <= chunks * per)%nat as HCov.
      { rewrite LC. pose proof (chunks_cover (N.of_nat (pN P * pCap P)) (N.of_nat (pT P)) ltac:(nia) ltac:(lia)) as HC. unfold chunks, per. rewrite <- N2Nat.inj_mul.
        clear -HC. generalize dependent (numChunks (N.of_nat (pN P * pCap P)) (N.of_nat (pT P)) * masksPer (N.of_nat (pN P * pCap P)) (N.of_nat (pT P))). intros q HC. lia. }
      assert (forall q, channelOf (pN P * pCap P) (pT P) q = ((q / per) mod pT P)%nat) as HCh by done.
      intros i. split.
      + intros H. apply elem_of_concat in H as (l & Hi & H). apply elem_of_list_fmap in H as (t & -> & Ht). destruct HD as (_ & _ & _ & _ & _ & D6). rewrite D6 in Ht. apply elem_of_seq in Ht.
        apply elem_of_list_omap in Hi as (m & Hm & Hf). apply channel_elem in Hm as (q & Hq & Hqt); [|done|done].
        apply (lookup_rows rows (pCap P)) in Hq as (p & l & r & -> & Hp & Hl); [|done]. destruct (INV p r Hp) as (k & j & Hk & Hj & ->).
        assert (j < pN P)%nat as Hjn by (apply elem_of_list_lookup_2 in Hj; rewrite HJ in Hj; apply elem_of_seq in Hj; lia). destruct (lookup_lt_is_Some_2 S j ltac:(lia)) as [y Ey].
        pose proof (findMask_sub P _ _ m (N.of_nat i) FA (fun e => SUB t e ltac:(lia)) Hf) as Hall.
        destruct (decide (y ∈ R)) as [HyR|HyR]; [|rewrite (find_other P rd R S old binsR masksR js row res HR RF _ j y CF HUR HUS Ey HyR m) in Hall; [done|by eapply elem_of_list_lookup_2]].
        apply elem_of_list_lookup in HyR as [i' Ex]. destruct (find_common P rd R S old binsR masksR js row res HR RF _ i' j y CF ND HUR Ex Ey) as (l0 & m0 & Hm0 & F1 & F2). specialize (F2 HUS).
        assert (l = l0) as -> by (destruct (decide (l = l0)) as [|NE]; [done|]; rewrite (F2 _ _ Hl NE) in Hall; done).
        rewrite Hm0 in Hl. injection Hl as ->. rewrite Hall in F1. injection F1 as F1. assert (i = i') as <- by lia.
        exists j, y, p, t. split; [done|]. split; [done|]. split.
        { assert (rowOf js j = k) as ->; [|done]. apply (NoDup_lookup js _ _ j); [rewrite HJ; apply NoDup_seq|by apply ROWOF|done]. }
        split.
        * rewrite findMask_key in Hf. destruct (findKey _ _) as [[pp full]|] eqn:EK; [|done]. apply findKey_Some in EK.
          destruct (entry_elem P rd R S old binsR masksR js row res HR RF t _ ltac:(lia) EK) as (base & i2 & x & l2 & s & Hpl & Ex2 & Hl2 & _ & _ & EE). injection EE as _ -> ->.
          destruct (_ =? m) in Hf; [|done]. injection Hf as Hf. apply Nat2N.inj in Hf. rewrite Nat.add_comm, Nat.div_add, Nat.div_small in Hf by lia. cbn in Hf. subst i2.
          rewrite Ex in Ex2. injection Ex2 as <-. by apply (places_owns _ _ _ _ _ _ HT Hw) in Hpl as [_ ?].
        * rewrite HCh. rewrite (COLOF j l0 m Hm0); [done|by rewrite Hall|exact F2].
      + intros (j & x & p & t & Ex & Ey & Hp & HO & Hc). assert (j < pN P)%nat as Hjn by (apply lookup_lt_Some in Ey; lia).
        destruct (owns_places (pCap P) (pNb P) (pT P) t (itemBin P x) HT Hw (itemBin_lt P x Hnb) HO) as (base & Hpl & Ht & Hpl').
        destruct (find_common P rd R S old binsR masksR js row res HR RF _ i j x CF ND HUR Ex Ey) as (l0 & m0 & Hm0 & F1 & F2). specialize (F2 HUS).
        rewrite (COLOF j l0 m0 Hm0) in Hc; [|by rewrite F1|exact F2].
        apply elem_of_concat. eexists. split; [|apply (elem_of_list_fmap_1 (fun t => omap _ _) _ t)].
        2:{ destruct HD as (_ & _ & _ & _ & _ & D6). rewrite D6. apply elem_of_seq. lia. }
        apply elem_of_list_omap. exists m0. split.
        { apply channel_elem; [done|done|]. exists (p * pCap P + l0)%nat. split; [|done]. apply (rows_lookup rows (pCap P) p l0 (row j)); [done| |done]. by apply (ROWS (rowOf js j)), ROWOF. }
        destruct (rfMR _ _ _ _ _ _ _ _ _ _ RF _ _ _ _ _ Hpl Ex eq_refl) as (s1 & Hs1 & Es1). destruct (rfRow _ _ _ _ _ _ _ _ _ _ RF _ _ _ _ _ Hpl Ey eq_refl) as (s2 & Hs2 & ER).
        pose proof (elem_entry P rd R S old binsR masksR js row res HR RF t base i x s2 s1 Ht Hpl' Ex Hs2 Es1) as IN.
        assert (findMask P (recvTable (recvEntries P (map (nco P) R) masksR binsR t)) (fullMask P t base s1 s2 x mod 2 ^ (8 * pMask P)) = Some (N.of_nat i)) as F3.
        { rewrite (findMask_at P _ (i * pCap P + s2)); [|intros e e' He He'; apply FA; by eapply SUB|exact IN]. f_equal. f_equal. rewrite Nat.add_comm, Nat.div_add by lia. rewrite Nat.div_small by done. done. }
        assert (row j !! s1 = Some (fullMask P t base s1 s2 x mod 2 ^ (8 * pMask P))) as Hr.
        { rewrite ER, (list_lookup_fmap (fun l => fullMask P t base l s2 x mod 2 ^ (8 * pMask P))), lookup_seq_lt by done. done. }
        destruct (decide (s1 = l0)) as [->|NE]; [rewrite Hm0 in Hr; injection Hr as ->; done|].
        exfalso. pose proof (findMask_sub P _ _ _ _ FA (fun e => SUB t e Ht) F3) as F4. rewrite (F2 _ _ Hr NE) in F4. done.
  Qed.
End run.
