(** Proofs about complete PIR-PSI runs. *)
From Coq Require Import QArith.
From Verif Require Import Base Partition_Model CuckooIndex_Model CuckooIndex_Spec CuckooIndex_Proofs CuckooParams_Model CuckooParams_Proofs Rr17_Model Rr17_Proofs
  Bgi_Model Bgi_Spec Bgi_Proofs BgiFull_Proofs Drrn_Model Drrn_Spec Drrn_Proofs DrrnMask_Proofs DrrnClient_Proofs DrrnServer_Proofs DrrnRun_Proofs DrrnTop_Proofs
  SimpleIndex_Spec Kkrt_Model Kkrt_Spec Kkrt_Proofs KkrtMain_Proofs DrrnFull_Model DrrnFull_Spec.
Local Open Scope N_scope.

(** ** The server's table *)

Lemma omap_filter_words (l : list N) : (omap entryOf l).*1 = map wordIdx (filter (fun w => w ≠ emptyWord) l).
Proof.
  induction l as [|w l IH]; [done|]. rewrite filter_cons. cbn [omap list_omap]. unfold entryOf at 1. destruct (decide (w = 2 ^ 64 - 1)) as [E|E].
  - rewrite decide_False; [exact IH|]. intros H. apply H. exact E.
  - rewrite decide_True by exact E. cbn [map fmap list_fmap fst]. rewrite IH. f_equal. symmetry. apply wordIdx_mod.
Qed.

Lemma times_seq (l : list N) n : (forall i, times l i = if decide (i < N.of_nat n) then 1%nat else 0%nat) -> map N.to_nat l ≡ₚ seq 0 n.
Proof.
  intros H. apply stdpp.list.NoDup_Permutation.
  - apply NoDup_fmap_2; [intros a b; lia|]. apply NoDup_alt. intros i j x Hi Hj. destruct (decide (i = j)) as [|Hn]; [done|exfalso].
    assert (exists i j, (i < j)%nat /\ l !! i = Some x /\ l !! j = Some x) as (i' & j' & L & Hi' & Hj').
    { destruct (Nat.lt_trichotomy i j) as [?|[?|?]]; [by exists i, j|done|by exists j, i]. }
    assert (2 <= times l x)%nat as T.
    { unfold times. rewrite <- (take_drop_middle l i' x Hi'). rewrite filter_app, filter_cons_True by done. rewrite app_length. cbn [length].
      assert (x ∈ drop (S i') l) as Hd. { apply elem_of_list_lookup. exists (j' - S i')%nat. rewrite lookup_drop. rewrite <- Hj'. f_equal. lia. }
      assert (0 < length (filter (fun y => y = x) (drop (S i') l)))%nat; [|lia].
      assert (x ∈ filter (fun y => y = x) (drop (S i') l)) as Hf by (apply elem_of_list_filter; done). destruct (filter _ _); [by apply elem_of_nil in Hf|cbn; lia]. }
    rewrite H in T. destruct (decide _); lia.
  - apply NoDup_seq.
  - intros k. rewrite elem_of_seq. rewrite elem_of_list_fmap. assert (forall i, i ∈ l <-> i < N.of_nat n) as G.
    { intros i. pose proof (H i) as T. unfold times in T. split.
      - intros Hi. assert (i ∈ filter (fun y => y = i) l) as Hf by (apply elem_of_list_filter; done). destruct (decide (i < N.of_nat n)); [done|].
        destruct (filter _ _); [by apply elem_of_nil in Hf|cbn in T; lia].
      - intros Hi. rewrite decide_True in T by done. destruct (filter (fun y => y = i) l) as [|y r] eqn:E; [cbn in T; lia|].
        assert (y ∈ filter (fun y => y = i) l) as Hf by (rewrite E; left). apply elem_of_list_filter in Hf as [-> Hf]. done. }
    split; [intros (i & -> & Hi); apply G in Hi; lia|]. intros Hk. exists (N.of_nat k). split; [lia|]. apply G. lia.
Qed.

Lemma setInputs_split log2d sec fuel enc c inputs numHash ssp ci : setInputs log2d sec fuel enc c inputs numHash ssp = Done ci ->
  (numHash = 2 \/ numHash = 3) /\ cBins c = [] /\ exists s c0, selectParams log2d sec fuel (N.of_nat (length inputs)) ssp 0 numHash = Done (Some s) /\
    init (indexParams s) c = Done c0 /\ insertItems enc c0 inputs 0 = Done ci.
Proof.
  unfold setInputs. destruct (N.eqb_spec numHash 2) as [E2|E2], (N.eqb_spec numHash 3) as [E3|E3]; cbn [negb andb]; try done.
  all: destruct (cBins c) as [|b bs]; cbn [length]; [|done]; change ((0 <? 0)%nat) with false; cbv iota.
  all: destruct (selectParams _ _ _ _ _ _ _) as [[s|]| | |] eqn:Es; try done; destruct (init (indexParams s) c) as [c0| | |] eqn:Ei; try done; intros E.
  all: (split; [auto|split; [done|by exists s, c0]]).
Qed.

Lemma setInputs_table log2d sec fuel enc lim serverSet numHash ssp ci s p : setInputs log2d sec fuel enc (constructed lim) serverSet numHash ssp = Done ci ->
  selectParams log2d sec fuel (N.of_nat (length serverSet)) ssp 0 numHash = Done (Some s) ->
  (0 < length serverSet)%nat -> (0 <= log2d (N.of_nat (length serverSet)))%Q -> N.of_nat (length serverSet) < 2 ^ 56 ->
  dSlots p = selNumBins s -> dH p = N.to_nat (sHashes s) -> tableOk enc p serverSet (cBins ci).
Proof.
  intros E Es Hn Hl Hb HS HH. destruct (setInputs_split _ _ _ _ _ _ _ _ _ E) as (Hh & _ & s' & c0 & Es' & Ei & Ein).
  rewrite Es in Es'. injection Es' as <-.
  destruct (selectParams_ok log2d sec fuel (N.of_nat (length serverSet)) ssp 0 numHash s ltac:(lia) Hl Es) as (Eh & En & Hge & Hpos & Est & _).
  assert (sHashes s = numHash) as Eh' by (rewrite Eh; by destruct Hh as [-> | ->]).
  assert (legalParams (indexParams s)) as Lp by (split; cbn; [done|rewrite Eh'; destruct Hh; subst numHash; lia]).
  assert (length serverSet <= pN (indexParams s))%nat as L1 by (cbn; rewrite En; lia).
  assert (N.of_nat (pN (indexParams s)) < 2 ^ 56) as L2 by (cbn; rewrite En; lia).
  destruct (cuckoo_insert_items enc (indexParams s) lim c0 serverSet ci Lp Ei L1 L2 Ein) as [A B].
  assert (N.of_nat (length (cBins ci)) = selNumBins s /\ cStash ci = []) as [Lb Lst].
  { destruct (insertItems_batches enc c0 serverSet 0) as (bs & Eb & Ec). rewrite Eb in Ein.
    assert (legalItems (indexParams s) (concat bs)) as L by (rewrite Ec; apply (imap_items_legal (indexParams s) (fun x => N.lxor (enc x) x) serverSet 0); [lia|exact L2]).
    pose proof (insertBatches_legal (indexParams s) lim c0 bs Lp Ei L) as G. rewrite Ein in G. destruct G as (set & _ & I & Sh & Hp).
    split; [rewrite (wf_len _ (inv_wf _ _ _ I)), Hp; done|]. destruct Sh as (_ & _ & _ & S4).
    unfold init in Ei. destruct (3 <? _); [done|]. injection Ei as <-. cbn in S4. rewrite Est in S4. cbn in S4. by destruct (cStash ci). }
  split; [by rewrite HS|]. split.
  - assert (storedIndices ci = map wordIdx (filter (fun w => w ≠ emptyWord) (cBins ci))) as Q.
    { unfold storedIndices. rewrite Lst, app_nil_r. apply omap_filter_words. }
    rewrite <- (map_map wordIdx N.to_nat), <- Q. by apply times_seq.
  - intros c w x Hc Hw Hx. destruct (B c w (wordIdx w) (w / 2 ^ 56) Hc) as (x' & Hx' & Hj & Hm).
    { unfold entryOf. rewrite decide_False by exact Hw. by rewrite wordIdx_mod. }
    rewrite Hx in Hx'. injection Hx' as <-. exists (N.to_nat (w / 2 ^ 56)). cbn [indexParams pNumHashes pNumBins] in Hj, Hm. split; [rewrite HH; lia|].
    unfold itemSlot. rewrite N2Nat.id, N.shiftr_div_pow2, HS. exact Hm.
Qed.

Lemma setInputs_guards log2d sec fuel enc c inputs numHash ssp :
  (numHash ≠ 2 -> numHash ≠ 3 -> setInputs log2d sec fuel enc c inputs numHash ssp = Thrown c) /\
  (cBins c ≠ [] -> setInputs log2d sec fuel enc c inputs numHash ssp = Thrown c).
Proof.
  unfold setInputs. split.
  - intros H2 H3. rewrite (proj2 (N.eqb_neq _ _) H2), (proj2 (N.eqb_neq _ _) H3). done.
  - intros Hb. destruct (negb _ && negb _); [done|]. destruct (cBins c); [done|]. done.
Qed.

(** ** The run up to the comparison *)

Section parts.
Variable (p : dparams) (enc : N -> N) (aes : bool -> N -> N) (prng : N -> N * N) (c : dchoices) (serverSet bins inputs : list N).

Lemma parts_drrn : drrn p enc aes prng c serverSet bins inputs =
  match drrnParts p enc aes prng c serverSet bins inputs with
  | Some (reals, final) => Some (remove_dups (map fst (filter (fun e : nat * N => e.2 ∈ final) reals)))
  | None => None
  end.
Proof using Type.
  unfold drrn, drrnParts. cbv zeta. repeat match goal with |- context [match ?x with _ => _ end] => destruct x; try done end.
Qed.

Hypothesis Hsz : sizesOk p.
Hypothesis Hlen : length inputs = dN p.
Hypothesis Hfit : queriesFit enc p inputs.
Hypothesis Hch : choicesOk p c.
Hypothesis Htab : tableOk enc p serverSet bins.
Variable (D G : N) (data : list (N * N)).
Hypothesis HDG : domainParams (dSlots p) (N.of_nat (dS p)) 1 = Done (D, G).
Hypothesis Hdata : tableOf bins serverSet = Some data.
Hypothesis Hsort : sortedTable data.
Hypothesis Hin : forall e, e ∈ data <-> exists c w, bins !! c = Some w /\ w ≠ emptyWord /\ serverSet !! N.to_nat (wordIdx w) = Some e.1 /\ e.2 = N.of_nat c.

Lemma parts_lengths : exists final, drrnParts p enc aes prng c serverSet bins inputs = Some (omap qReal (concat (rowsQ p enc aes prng c inputs D G)), final) /\
  length final = permSize p.
Proof using All.
  destruct Hch as (HP1 & Ls & Hsg & HO0 & HO1). destruct (domain_facts p aes data D G Hsz HDG Hsort) as (HG & _).
  pose proof (total_fits p enc aes prng c inputs Hsz Hlen Hfit) as TF.
  pose proof (perm_P p enc aes prng c serverSet bins inputs Hsz Hlen Hfit Hch Htab D G data HDG Hdata Hsort Hin) as PP.
  set (P := permSize p) in *. set (rows := rowsQ p enc aes prng c inputs D G) in *. set (es := ents p enc aes prng c inputs D G).
  pose proof (ents_length p enc aes prng c serverSet bins inputs Hsz Hlen Hfit Hch Htab D G data HDG Hdata Hsort Hin) as EL. fold es P in EL.
  destruct (sigmaMasks_ok (dH p) (cSigmas c) ltac:(destruct Hsz as (_ & HH & _); lia) Hsg [] (maskList (cMask c) P 0)) as (r' & Er & HB).
  { rewrite Ls, maskList_length, PP. exact TF. }
  cbn [app length] in Er. rewrite Ls in HB. pose proof (blockPerm_length _ _ _ _ HB) as Lr. rewrite maskList_length in Lr.
  pose proof (pi_perm p enc aes prng c inputs Hsz Hlen Hfit D G HDG) as HPi. fold rows P in HPi.
  set (sh0 := map (fun e => shareOf p aes data e.1 (qK0 e.2)) es). set (sh1 := map (fun e => shareOf p aes data e.1 (qK1 e.2)) es).
  destruct (final_ok P (piOf p rows) (cPi1 c) (maskList (cMask c) P 1) (maskList (cMask c) P 2) r' sh0 sh1) as (pi0 & piS0 & rs & final & E1 & E2 & E3 & Lf & K).
  - exact HP1.
  - apply Forall_forall. intros k Hk. rewrite HPi in Hk. apply elem_of_seq in Hk. lia.
  - rewrite HPi. apply seq_length.
  - apply maskList_length.
  - apply maskList_length.
  - done.
  - subst sh0. rewrite map_length. exact EL.
  - subst sh1. rewrite map_length. exact EL.
  - exists final. split; [|done].
    unfold drrnParts. fold P. rewrite (clientLayout_ok p enc aes prng c inputs Hsz Hlen Hfit D G HDG) by lia. fold rows. rewrite Hdata, E1, Er, E2. subst rows.
    rewrite (shares_ok p enc aes prng c serverSet bins inputs Hsz Hlen Hfit Hch Htab D G data HDG Hdata Hsort Hin qK0 _ HO0),
      (shares_ok p enc aes prng c serverSet bins inputs Hsz Hlen Hfit Hch Htab D G data HDG Hdata Hsort Hin qK1 _ HO1); [fold es sh0 sh1; rewrite E3; done| |];
      intros b e He; by apply (keys_shape p enc aes prng c serverSet bins inputs Hsz Hlen Hfit Hch Htab D G data HDG Hdata Hsort Hin b).
Qed.

Lemma rows_reals b d bs : length (omap qReal (concat (rowsOf p (N.to_nat D) (N.to_nat G) (entQ p enc aes prng c inputs D G) b bs d))) = length (concat bs).
Proof using Type.
  revert b d. induction bs as [|l bs IH]; intros b d; [done|]. cbn [rowsOf concat]. rewrite omap_app, app_length, IH, app_length. f_equal.
  rewrite omap_app, app_length.
  assert (forall l' : list nat, length (omap qReal (map (entQ p enc aes prng c inputs D G b) l')) = length l') as G1 by (induction l' as [|q l' I]; [done|]; cbn; f_equal; exact I).
  assert (forall l' : list nat, length (omap qReal (map (dummyEntry (N.to_nat D) (N.to_nat G)) l')) = 0%nat) as G2 by (induction l' as [|q l' I]; [done|]; cbn; exact I).
  rewrite G1, G2. apply Nat.add_0_r.
Qed.
Lemma reals_length : length (omap qReal (concat (rowsQ p enc aes prng c inputs D G))) = (dN p * dH p)%nat.
Proof using All.
  unfold rowsQ. rewrite rows_reals.
  etrans; [exact (Permutation_length (partition_perm (regQ p enc inputs) (seq 0 (dN p * dH p)) (dS p) (fun q _ => regQ_lt p enc aes prng c inputs Hsz Hlen Hfit q)))|].
  apply seq_length.
Qed.
End parts.

(** ** The comparison *)

Lemma finalOut_ok k p reals final : length reals = (dN p * dH p)%nat -> length final = permSize p -> (0 < permSize p)%nat -> finalOk k (map snd reals) final ->
  finalOut k p reals final = Done None \/
  exists out, finalOut k p reals final = Done (Some out) /\ NoDup out /\
    forall i, i ∈ out <-> i ∈ map fst (filter (fun e : nat * N => e.2 ∈ final) reals).
Proof.
  intros Lr Lf HP [F1 F2 F3 F4 F5 F6 F7 F8 F9 F10]. unfold finalOut.
  unfold recvInit. cbn [krIndex krIntersection]. destruct (init (fParam k) (constructed (fLimit k))) as [c0| | |] eqn:Ei.
  2-4: unfold init in Ei; destruct F1 as [_ F1]; destruct (N.ltb_spec 3 (pNumHashes (fParam k))); first [lia|done].
  destruct (F7 c0 eq_refl) as [cc Ecc].
  destruct (sender_runs (fF k) (fEnc k) (fSeed k) (fJunk k) (fMaskSize k) (pNumBins (fParam k)) (fPm k) (fIv k) final (fSched k)) as (g & e & E & _);
    [by destruct F1|done|lia|done|]. rewrite Lf in E. rewrite E. destruct e as [|msgs]; [by left|right].
  destruct (kkrt_exact (fF k) (fEnc k) (fSeed k) (fJunk k) (fMaskSize k) (fParam k) (fLimit k) (mkKReceiver c0 []) (fPm k) (fIv k) final (map snd reals)
    (fSched k) g msgs cc) as (o' & Eo & HA & HB); try done.
  - unfold recvInit. cbn [krIndex krIntersection]. by rewrite Ei.
  - lia.
  - by rewrite Lf.
  - rewrite map_length, Lr, Lf in Eo. rewrite Eo. eexists. split; [reflexivity|]. split; [apply NoDup_remove_dups|].
    destruct (HA F8 F9) as [HS _]. specialize (HB F10). intros i. rewrite elem_of_remove_dups, !elem_of_list_fmap. split.
    + intros (n & -> & Hn). destruct (HS n Hn) as (x & Hx & Hin). change (map ?f ?l) with (f <$> l) in Hx. rewrite list_lookup_fmap in Hx.
      destruct (reals !! N.to_nat n) as [[j s]|] eqn:Er; [|done]. cbn in Hx. injection Hx as <-. exists (j, s). split; [done|].
      apply elem_of_list_filter. split; [done|]. by eapply elem_of_list_lookup_2.
    + intros ([j s] & -> & Hf). apply elem_of_list_filter in Hf as [Hf Hm]. apply elem_of_list_lookup in Hm as [n Hn].
      exists (N.of_nat n). rewrite Nat2N.id, Hn. split; [done|]. apply (HB n s); [|done]. change (map ?f ?l) with (f <$> l). by rewrite list_lookup_fmap, Hn.
Qed.

(** ** Complete runs *)

Lemma parts_ok p enc aes prng c serverSet bins inputs : sizesOk p -> length inputs = dN p -> queriesFit enc p inputs -> choicesOk p c ->
  tableOk enc p serverSet bins ->
  exists reals final, drrnParts p enc aes prng c serverSet bins inputs = Some (reals, final) /\ length reals = (dN p * dH p)%nat /\ length final = permSize p.
Proof.
  intros Hsz Hlen Hfit Hch Htab.
  assert (dSlots p < 2 ^ 32) as W by (destruct Hsz as (_ & _ & _ & _ & HS & _); change (2 ^ 32) with (2 * 2 ^ 31); lia).
  destruct (tableOf_ok enc p serverSet bins Htab W) as (data & Hdata & Hsort & Hin).
  assert (exists D G, domainParams (dSlots p) (N.of_nat (dS p)) 1 = Done (D, G)) as (D & G & HDG).
  { destruct Hsz as (_ & _ & HS & HB & HSl & HP). assert (N.of_nat (dS p) < 2 ^ 32) by nia.
    destruct (domain_ok (dSlots p) (N.of_nat (dS p)) 1) as (D & G & E & _); [lia|lia|change two64 with (2 ^ 32 * 2 ^ 32); nia|change two64 with (2 ^ 32 * 2 ^ 32); nia|].
    by exists D, G. }
  destruct (parts_lengths p enc aes prng c serverSet bins inputs Hsz Hlen Hfit Hch Htab D G data HDG Hdata Hsort Hin) as (final & E & L).
  eexists _, final. split; [exact E|]. split; [|done].
  exact (reals_length p enc aes prng c serverSet bins inputs Hsz Hlen Hfit Hch Htab D G data HDG Hdata Hsort Hin).
Qed.

Lemma full_exact log2d sec fuel lim enc aes prng c serverSet numHash ssp s ci inputs p :
  setInputs log2d sec fuel enc (constructed lim) serverSet numHash ssp = Done ci ->
  selectParams log2d sec fuel (N.of_nat (length serverSet)) ssp 0 numHash = Done (Some s) ->
  (0 < length serverSet)%nat -> (0 <= log2d (N.of_nat (length serverSet)))%Q ->
  dSlots p = selNumBins s -> dH p = N.to_nat (sHashes s) ->
  sizesOk p -> length inputs = dN p -> queriesFit enc p inputs -> choicesOk p c ->
  masksFresh p (cMask c) serverSet inputs -> 0 ∉ inputs -> regionsLead p (cBins ci) ->
  exists reals final, drrnParts p enc aes prng c serverSet (cBins ci) inputs = Some (reals, final) /\
    forall k, finalOk k (map snd reals) final ->
      finalOut k p reals final = Done None \/
      exists out, finalOut k p reals final = Done (Some out) /\ NoDup out /\ forall i, i ∈ out <-> exists x, inputs !! i = Some x /\ x ∈ serverSet.
Proof.
  intros E Es Hn Hl HS HH Hsz Hlen Hfit Hch HM H0 HL.
  destruct (selectParams_ok log2d sec fuel (N.of_nat (length serverSet)) ssp 0 numHash s ltac:(lia) Hl Es) as (_ & _ & Hge & _).
  assert (N.of_nat (length serverSet) < 2 ^ 56) as Hb.
  { destruct Hsz as (_ & _ & _ & _ & [_ H31] & _). assert (2 ^ 31 < 2 ^ 56) by done. rewrite HS in H31. lia. }
  pose proof (setInputs_table _ _ _ _ _ _ _ _ _ s p E Es Hn Hl Hb HS HH) as Htab.
  destruct (parts_ok p enc aes prng c serverSet (cBins ci) inputs Hsz Hlen Hfit Hch Htab) as (reals & final & Ep & Lr & Lf).
  exists reals, final. split; [done|]. intros k Hk.
  assert (0 < permSize p)%nat as HP. { unfold permSize. destruct Hsz as (-> & _ & ? & ? & _). nia. }
  destruct (run_exact p enc aes prng c serverSet (cBins ci) inputs Hsz Hlen Hfit Hch Htab HM H0 HL) as (out' & Ed & _ & Hout).
  rewrite parts_drrn, Ep in Ed. injection Ed as <-.
  destruct (finalOut_ok k p reals final Lr Lf HP Hk) as [Q|(out & Q & ND & Hi)]; [by left|right].
  exists out. split; [done|]. split; [done|]. intros i. rewrite Hi, <- Hout. by rewrite elem_of_remove_dups.
Qed.
