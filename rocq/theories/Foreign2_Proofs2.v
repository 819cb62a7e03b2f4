(** Proofs about the receiver of GRR18 on freely chosen messages. *)
From Verif Require Import Base Partition_Model Foreign_Spec Foreign_Proofs Foreign2_Model Foreign2_Spec Dcw_Proofs Ecdh_Proofs.
From Verif Require Import Rr17_Model Rr17_Proofs Rr17a_Model Rr17a_Spec Rr17a_Proofs Grr18_Model Grr18_Spec Grr18_Proofs.

Lemma storeMasks_ok bits es : forall mem, (forall k q m, (k, (q, m)) ∈ es -> (q < length mem)%nat) ->
  exists mem', storeMasks bits es mem = Some mem' /\ length mem' = length mem /\
    forall q, (exists k m, (k, (q, m)) ∈ es /\ mem' !! q = Some (m mod 2 ^ bits)) \/ (forall k m, (k, (q, m)) ∉ es) /\ mem' !! q = mem !! q.
Proof.
  induction es as [|[k [q m]] es IH]; intros mem H; cbn [storeMasks].
  - exists mem. split; [done|]. split; [done|]. intros q. right. split; [|done]. intros k m Hk. by apply elem_of_nil in Hk.
  - assert (q < length mem)%nat as Lq by (apply (H k q m); left). assert ((q <? length mem)%nat = true) as -> by (by apply Nat.ltb_lt).
    destruct (IH (<[q := m mod 2 ^ bits]> mem)) as (mem' & E & L & K).
    { intros k' q' m' H'. rewrite insert_length. apply (H k' q' m'). by right. }
    exists mem'. split; [done|]. split; [by rewrite L, insert_length|]. intros q'. destruct (K q') as [(k' & m' & H1 & H2)|[H1 H2]].
    + left. exists k', m'. split; [by right|done].
    + destruct (decide (q' = q)) as [->|Hq].
      * left. exists k, m. split; [left|]. rewrite H2. by apply list_lookup_insert.
      * right. rewrite list_lookup_insert_ne in H2 by done. split; [|done]. intros k' m' H'. apply elem_of_cons in H' as [H'|H']; [|by apply (H1 k' m')]. congruence.
Qed.

Lemma tab_elem es e : e ∈ recvTable es -> e ∈ es.
Proof.
  unfold recvTable. assert (forall acc, e ∈ foldl tabInsert acc es -> e ∈ acc \/ e ∈ es) as G.
  { induction es as [|a es IH]; intros acc H; [by left|]. cbn in H. apply IH in H as [H|H]; [|right; by right]. unfold tabInsert in H. case_bool_decide; [by left|].
    apply elem_of_app in H as [H|H%elem_of_list_singleton]; [by left|]. right. subst. left. }
  intros H. apply G in H as [H|H]; [by apply elem_of_nil in H|done].
Qed.

Lemma grr_earned P rd wr ownR theirs R chan old : let lR := recvLoads ownR theirs in
  paramsOk P R -> loadsOk P R ownR -> length theirs = pNb P -> (forall b l, theirs !! b = Some l -> (l <= pCap P)%nat) ->
  (forall b l, lR !! b = Some l -> gShufR rd b ≡ₚ seq 0 l) -> gOrdR rd ≡ₚ seq 0 (pN P) -> (forall batches, gIns rd batches ≡ₚ batches) -> wr ≡ₚ seq 0 (pT P) ->
  (forall x, x ∈ R -> 0 ∉ map (keyOf P) (grrMasks P lR theirs x)) ->
  exists out, grrReceive P rd wr ownR theirs R chan old = Done out /\
    earned (length R) (listOwn (grrMasks P lR theirs) (pMask P) R) (concat (map chan (gOut rd))) old out.
Proof.
  intros lR HR HLO LT HTc D1 D3 D5 HW HZ. pose proof HR as (Hn & Hnb & Hcap & HT & HM & Hw & HLenR & HCR).
  destruct (mkBins_ok P R _ HR D3) as (binsR & ER & OR). unfold grrReceive. fold lR. rewrite HLenR, Nat.eqb_refl. cbn [negb]. assert ((16 <? pMask P) = false) as -> by (apply N.ltb_ge; done).
  assert ((length theirs <? pNb P)%nat = false) as -> by (apply Nat.ltb_ge; lia). rewrite ER.
  assert (length lR = pNb P) as LlR by (unfold lR, recvLoads; rewrite zip_with_length, LT, (proj1 HLO); lia).
  assert (forall b l, lR !! b = Some l -> (load P R b <= l <= pCap P)%nat) as HlR.
  { intros b l. unfold lR, recvLoads. rewrite lookup_zip_with_Some. intros (u & v & -> & Hu & Hv). apply (proj2 HLO) in Hu. apply HTc in Hv. lia. }
  destruct (party_masksL P R binsR (pEncR P) (map (nco P) R) (gShufR rd) lR HR OR) as (asR & EaR & MR).
  { intros b Hb. pose proof (ld_lookup lR b ltac:(lia)) as E. split; [by apply D1|]. by apply (HlR b). }
  rewrite EaR. cbv zeta. set (masksR := threadMasks (pEncR P) (map (nco P) R) asR (replicate (pN P) 0)) in *.
  set (blocks := grrBlocks P theirs (map (nco P) R) masksR binsR).
  assert (forall i x, R !! i = Some x -> (i < pN P)%nat) as LTR by (intros i x E; apply lookup_lt_Some in E; lia).
  assert (forall b, (ld theirs b <= pCap P)%nat) as HLD.
  { intros b. unfold ld. destruct (theirs !! b) as [l|] eqn:E; [cbn; by apply (HTc b)|cbn; lia]. }
  assert (forall t k q m, (t < pT P)%nat -> (k, (q, m)) ∈ concat (blocks t) -> exists i x l, R !! i = Some x /\ (l < pCap P)%nat /\ q = (i * pCap P + l)%nat /\
    m ∈ grrMasks P lR theirs x /\ k = keyOf P m) as BL.
  { intros t k q m Ht He. apply elem_of_concat in He as (blk & He & Hblk). unfold blocks, grrBlocks in Hblk. apply elem_of_concat in Hblk as (l1 & Hblk & H).
    apply elem_of_list_fmap in H as ([[t' b] base] & -> & Hpl). apply placesL_elem in Hpl as (-> & It & ->); [|done|done|done]. apply elem_of_list_fmap in Hblk as (i & -> & Hi).
    pose proof (inThr_lt P HT Hw _ _ It) as Hb. destruct (binsOk_elem P R binsR b i OR Hb) as (bin & Eb & _ & HI). rewrite Eb in Hi. apply HI in Hi as (x & Ex & <-).
    destruct (MR t i x It Ex) as (s & Hs & Es). rewrite (list_lookup_fmap (nco P)), Ex in Es. cbn [fmap option_fmap option_map default] in Es. unfold id in Es.
    apply elem_of_lookup_imap_1 in He as (l & m' & EE & Hl). injection EE as -> -> ->. unfold itemMasks in Hl. rewrite (list_lookup_fmap (fun l => N.lxor _ _)) in Hl.
    destruct (seq 0 (ld theirs (itemBin P x)) !! l) as [l'|] eqn:El; [|done]. apply lookup_seq in El as [-> El]. cbn in Hl. injection Hl as <-.
    exists i, x, l. split; [done|]. pose proof (HLD (itemBin P x)). split; [lia|]. split; [done|]. split; [|done].
    rewrite Es, (list_lookup_fmap (nco P)), Ex. cbn [default fmap option_fmap option_map]. unfold id. rewrite N.lxor_comm. by apply (grr_in P lR theirs t x s l). }
  assert (forall e, e ∈ concat (concat (map blocks wr)) <-> exists t, (t < pT P)%nat /\ e ∈ concat (blocks t)) as WR.
  { intros e. split.
    - intros H. apply elem_of_concat in H as (blk & He & Hblk). apply elem_of_concat in Hblk as (bs & Hblk & H). apply elem_of_list_fmap in H as (t & -> & Ht).
      rewrite HW in Ht. apply elem_of_seq in Ht. exists t. split; [lia|]. apply elem_of_concat. by exists blk.
    - intros (t & Ht & H). apply elem_of_concat in H as (blk & He & Hblk). apply elem_of_concat. exists blk. split; [done|]. apply elem_of_concat. exists (blocks t). split; [done|].
      apply (elem_of_list_fmap_1 blocks). rewrite HW. apply elem_of_seq. lia. }
  destruct (storeMasks_ok (8 * pMask P) (concat (concat (map blocks wr))) (replicate (pN P * pCap P) 0)) as (mem & Emem & Lmem & Kmem).
  { intros k q m He. apply WR in He as (t & Ht & He). apply (BL t) in He as (i & x & l & Ex & Hl & -> & _); [|done]. rewrite replicate_length. pose proof (LTR i x Ex). nia. }
  rewrite Emem. set (batches := concat (map (fun t => flushes (N.of_nat (pCap P) * 4096) [] (blocks t)) (seq 0 (pT P)))). set (entries := concat (gIns rd batches)).
  assert (forall e, e ∈ entries -> exists t, (t < pT P)%nat /\ e ∈ concat (blocks t)) as ENT.
  { intros e. unfold entries. rewrite (Permutation_concat' _ _ (D5 batches)). unfold batches.
    assert (forall ts, e ∈ concat (concat (map (fun t => flushes (N.of_nat (pCap P) * 4096) [] (blocks t)) ts)) -> exists t, t ∈ ts /\ e ∈ concat (blocks t)) as G.
    { induction ts as [|t ts IH]; cbn [map concat]; [intros H; by apply elem_of_nil in H|]. rewrite concat_app, elem_of_app, flushes_concat. cbn [app].
      intros [H|H]; [exists t; split; [left|done]|]. destruct (IH H) as (t' & H1 & H2). exists t'. split; [by right|done]. }
    intros H. apply G in H as (t & Ht & H). exists t. apply elem_of_seq in Ht. split; [lia|done]. }
  assert (existsb (fun e : N * (nat * N) => e.1 =? 0) entries = false) as ->.
  { apply not_true_iff_false. intros H. apply existsb_exists in H as ([k [q m]] & He & H). apply N.eqb_eq in H. cbn [fst] in H. subst k. apply elem_of_list_In, ENT in He as (t & Ht & He).
    apply BL in He as (i & x & l & Ex & _ & _ & Hm & Ek); [|done]. apply (HZ x); [by eapply elem_of_list_lookup_2|]. rewrite Ek. by apply (elem_of_list_fmap_1 (keyOf P)). }
  eexists. split; [reflexivity|]. eexists. split; [reflexivity|]. split; [apply (concat_omap_length (fun _ => lookMask P mem (recvTable entries)) chan)|].
  intros p Hp. apply (elem_concat_omap (fun _ => lookMask P mem (recvTable entries)) chan) in Hp as (t & m & Ht & Hm & Hm' & Ef). cbn beta in Ef.
  unfold lookMask in Ef. destruct (list_find _ _) as [[j [k [q full]]]|] eqn:El; [|done]. destruct (_ =? m) eqn:Em; [|done]. injection Ef as <-. apply N.eqb_eq in Em.
  apply list_find_Some in El as (El & _ & _). apply elem_of_list_lookup_2, tab_elem, ENT in El as (t1 & Ht1 & El).
  assert ((k, (q, full)) ∈ concat (concat (map blocks wr))) as Hin by (apply WR; eauto).
  destruct (Kmem q) as [(k2 & m2 & He2 & Eq)|[Hno _]]; [|by destruct (Hno k full)]. rewrite Eq in Em. cbn [default] in Em. unfold id in Em.
  apply WR in He2 as (t2 & Ht2 & He2). apply BL in He2 as (i & x & l & Ex & Hl & -> & Hmx & _); [|done].
  assert ((i * pCap P + l) / pCap P = i)%nat as -> by (rewrite Nat.div_add_l by lia; rewrite Nat.div_small by done; lia).
  split; [apply lookup_lt_Some in Ex; lia|]. exists m. split; [done|]. rewrite Nat2N.id. exists x, m2. done.
Qed.
