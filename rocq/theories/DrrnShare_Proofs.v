(** The answers of the PIR-PSI servers for every table, and what a run reports. *)
From Verif Require Import Base Partition_Model CuckooIndex_Model Rr17_Model Rr17_Proofs Bgi_Model Bgi_Spec Bgi_Proofs BgiFull_Proofs Drrn_Model Drrn_Spec
  Drrn_Proofs DrrnMask_Proofs DrrnClient_Proofs DrrnServer_Proofs DrrnRun_Proofs DrrnTop_Proofs DrrnShare_Spec.

Lemma shares_from p aes keys data order : sizesOk p -> sortedTable data -> keysOk p keys -> order ≡ₚ seq 0 (dS p) ->
  serverShares p aes keys data order =
    Some (concat (imap (fun b ks => map (regionShareFrom aes (dSlots p) (N.of_nat (dS p)) data (N.of_nat b)) ks) keys)).
Proof.
  intros Hsz HS (D & G & HDG & L1 & L2 & L3) HO. rewrite (serverShares_ok p aes data D G Hsz HDG HS keys order HO L1 L2 L3). f_equal. f_equal.
  apply imap_ext. intros b ks Hk. apply map_ext. intros kg. assert (b < dS p)%nat as Hb by (apply lookup_lt_Some in Hk; lia).
  unfold shareOf, regionShareFrom. cbn zeta. rewrite <- (itemsOf_region p data b Hsz Hb). unfold firstOf, originSlot. by destruct (itemsOf p data b).
Qed.

Section run.
Variable (p : dparams) (enc : N -> N) (aes : bool -> N -> N) (prng : N -> N * N) (c : dchoices) (serverSet bins inputs : list N).
Hypothesis Hsz : sizesOk p.
Hypothesis Hlen : length inputs = dN p.
Hypothesis Hfit : queriesFit enc p inputs.
Hypothesis Hch : choicesOk p c.
Hypothesis Htab : tableOk enc p serverSet bins.
Variable (D G : N) (data : list (N * N)).
Hypothesis HDG : domainParams (dSlots p) (N.of_nat (dS p)) 1 = Done (D, G).
Hypothesis Hdata : tableOf bins serverSet = Some data.
Hypothesis Hsort : sortedTable data.
Hypothesis Hin : forall e, e ∈ data <-> exists c w, bins !! c = Some w /\ w ≠ emptyWord /\ serverSet !! N.to_nat (wordIdx w) = Some e.1 /\ e.2 = N.of_nat c.

Local Notation rows := (rowsQ p enc aes prng c inputs D G).
Local Notation ent := (entQ p enc aes prng c inputs D G).
Local Notation bin := (binQ p enc inputs).
Local Notation P := (permSize p).
Local Notation ents := (ents p enc aes prng c inputs D G).
Local Notation valE := (valE p aes data).

Lemma data_stored x s : (x, s) ∈ data <-> storedAt serverSet bins s x.
Proof using All.
  rewrite Hin. cbn [fst snd]. split.
  - intros (cc & w & H1 & H2 & H3 & ->). exists w. rewrite Nat2N.id. done.
  - intros (w & H1 & H2 & H3). exists (N.to_nat s), w. rewrite N2Nat.id. done.
Qed.
Lemma first_stored b e l : (b < dS p)%nat -> itemsOf p data b = e :: l -> firstStored p serverSet bins (N.of_nat b) (firstOf p data b).
Proof using All.
  intros Hb E. assert (e ∈ itemsOf p data b) as He by (rewrite E; left). pose proof He as He'. apply (itemsOf_in p aes data D G Hsz HDG Hsort) in He' as [Hd Hr].
  assert (firstOf p data b = e.2) as Ef by (unfold firstOf; by rewrite E). split; [|split].
  - rewrite Ef. by apply (region_slots p Hsz).
  - exists e.1. apply data_stored. rewrite Ef. by destruct e.
  - intros c' x' HR HS'. apply data_stored in HS'. apply (firstOf_le p aes data D G Hsz HDG Hsort b (x', c')).
    apply (itemsOf_in p aes data D G Hsz HDG Hsort). split; [done|]. by apply (region_slots p Hsz).
Qed.
Lemma first_unique b c0 : (b < dS p)%nat -> firstStored p serverSet bins (N.of_nat b) c0 -> firstOf p data b = c0.
Proof using All.
  intros Hb (H1 & (x & H2) & H3). apply data_stored in H2. assert ((x, c0) ∈ itemsOf p data b) as Hm.
  { apply (itemsOf_in p aes data D G Hsz HDG Hsort). split; [done|]. by apply (region_slots p Hsz). }
  pose proof (firstOf_le p aes data D G Hsz HDG Hsort b _ Hm) as F1. cbn [snd] in F1.
  destruct (itemsOf p data b) as [|e l] eqn:E; [by apply elem_of_nil in Hm|]. destruct (first_stored b e l Hb E) as (G1 & (x' & G2) & _).
  specialize (H3 _ _ G1 G2). lia.
Qed.

(** What a real query retrieves. *)
Definition atQ (b q : nat) (v : N) : Prop := exists c0 cc, firstStored p serverSet bins (N.of_nat b) c0 /\ inRegion (dSlots p) (N.of_nat (dS p)) (N.of_nat b) cc /\
    storedAt serverSet bins cc v /\ cc = slotQ p enc inputs q + (c0 - loOf p b).
Lemma valE_iff b q x : (b < dS p)%nat -> q ∈ bin b -> valE (b, ent b q) = x <-> atQ b q x \/ x = 0 /\ forall v, ~ atQ b q v.
Proof using All.
  intros Hb Hq. rewrite (valE_real p enc aes prng c serverSet bins inputs Hsz Hlen Hfit Hch Htab D G data HDG Hdata Hsort Hin) by done.
  unfold binQ in Hq. apply elem_of_list_filter in Hq as [Hr Hq]. apply (regQ_iff p enc aes prng c inputs Hsz Hlen Hfit) in Hr. apply (region_slots p Hsz) in Hr; [|done].
  pose proof (firstOf_lo p aes data D G Hsz HDG Hsort b) as F2.
  destruct (selectItems_point (slotQ p enc inputs q - loOf p b) (firstOf p data b) (itemsOf p data b)) as [(e & He & E2 & ->)|[Hno ->]].
  - by apply (itemsOf_sorted p aes data D G Hsz HDG Hsort).
  - intros e He. by apply (firstOf_le p aes data D G Hsz HDG Hsort).
  - pose proof He as He'. apply (itemsOf_in p aes data D G Hsz HDG Hsort) in He' as [Hd Hrr].
    assert (atQ b q e.1) as Hat.
    { exists (firstOf p data b), e.2. split; [|split; [by apply (region_slots p Hsz)|split; [apply data_stored; by destruct e|lia]]].
      destruct (itemsOf p data b) as [|e0 l] eqn:E; [by apply elem_of_nil in He|]. by eapply first_stored. }
    split; [intros <-; by left|]. intros [Hat'|[_ Hn]]; [|by destruct (Hn e.1)]. destruct Hat' as (c0 & cc & H1 & H2 & H3 & H4).
    apply first_unique in H1; [|done]. rewrite <- H1 in H4. assert (cc = e.2) as Ecc by lia.
    apply data_stored in H3. rewrite Ecc in H3. destruct e as [v s]. cbn [fst snd] in *.
    apply elem_of_list_lookup in Hd as [i Hi]. apply elem_of_list_lookup in H3 as [j Hj]. destruct (Nat.lt_trichotomy i j) as [L|[L|L]].
    + pose proof (sorted_lookup data i j _ _ Hsort Hi Hj L) as Q. cbn in Q. lia.
    + rewrite L in Hi. rewrite Hi in Hj. by injection Hj as ->.
    + pose proof (sorted_lookup data j i _ _ Hsort Hj Hi L) as Q. cbn in Q. lia.
  - assert (forall v, ~ atQ b q v) as Hn.
    { intros v (c0 & cc & H1 & H2 & H3 & H4). apply first_unique in H1; [|done]. rewrite <- H1 in H4.
      apply data_stored in H3. apply (Hno (v, cc)); [|cbn [snd]; lia]. apply (itemsOf_in p aes data D G Hsz HDG Hsort). split; [done|]. by apply (region_slots p Hsz). }
    split; [intros <-; by right|]. intros [Hat|[-> _]]; [by destruct (Hn x)|done].
Qed.

Lemma at_iff i x j v : inputs !! i = Some x -> (j < dH p)%nat -> let q := (i * dH p + j)%nat in
  atQ (regQ p enc inputs q) q v <-> shiftedStored enc p serverSet bins x j v.
Proof using All.
  intros Hx Hj q. pose proof (regQ_lt p enc aes prng c inputs Hsz Hlen Hfit q) as Hb.
  assert (slotQ p enc inputs q = itemSlot enc (dSlots p) x j) as HS.
  { subst q. unfold slotQ, itemOf. rewrite Nat.add_comm, Nat.div_add, Nat.mod_add, Nat.div_small, Nat.mod_small by lia. cbn [Nat.add]. by rewrite Hx. }
  split.
  - intros (c0 & cc & H1 & H2 & H3 & H4). exists (N.of_nat (regQ p enc inputs q)), c0, cc. split; [rewrite <- HS; by apply (regQ_iff p enc aes prng c inputs Hsz Hlen Hfit)|].
    split; [done|]. split; [done|]. split; [done|]. by rewrite <- HS, <- (loOf_first p _ Hsz Hb).
  - intros (b & c0 & cc & HR & H1 & H2 & H3 & H4).
    assert (b = N.of_nat (regQ p enc inputs q)) as Eb.
    { rewrite <- HS in HR. rewrite <- (N2Nat.id b) in HR. apply (regQ_iff p enc aes prng c inputs Hsz Hlen Hfit) in HR. lia. }
    exists c0, cc. rewrite <- Eb. split; [done|]. split; [done|]. split; [done|]. rewrite HS, (loOf_first p _ Hsz Hb), <- Eb. done.
Qed.

Lemma hit_iff i x : inputs !! i = Some x ->
  shiftedAnswer enc p serverSet bins x <-> exists j, (j < dH p)%nat /\ let q := (i * dH p + j)%nat in valE (regQ p enc inputs q, ent (regQ p enc inputs q) q) = x.
Proof using All.
  intros Hx. assert (i < dN p)%nat as Hi by (apply lookup_lt_Some in Hx; lia). unfold shiftedAnswer. apply exist_proper. intros j.
  split; intros [Hj H]; (split; [done|]); cbn zeta in *.
  - apply valE_iff; [apply (regQ_lt p enc aes prng c inputs Hsz Hlen Hfit)| |].
    { unfold binQ. apply elem_of_list_filter. split; [done|]. apply elem_of_seq. nia. }
    destruct H as [H|[-> H]]; [left; by apply (at_iff i x)|right]. split; [done|]. intros v Hv. apply (H v). by apply (at_iff i 0) in Hv.
  - apply valE_iff in H; [|apply (regQ_lt p enc aes prng c inputs Hsz Hlen Hfit)|].
    2: { unfold binQ. apply elem_of_list_filter. split; [done|]. apply elem_of_seq. nia. }
    destruct H as [H|[-> H]]; [left; by apply (at_iff i x) in H|right]. split; [done|]. intros v Hv. apply (H v). by apply (at_iff i 0).
Qed.

(** The masks of the unused places are not those of real queries. *)
Lemma dummy_pi b d : (b, dummyEntry (N.to_nat D) (N.to_nat G) d) ∈ ents -> (dN p * dH p <= N.to_nat (qPi (dummyEntry (N.to_nat D) (N.to_nat G) d)))%nat.
Proof using All.
  intros He. set (t := N.to_nat _). destruct (decide (t < dN p * dH p)%nat) as [L|L]; [|lia]. exfalso.
  pose proof (pi_perm p enc aes prng c inputs Hsz Hlen Hfit D G HDG) as HPi.
  rewrite (ents_pi p enc aes prng c serverSet bins inputs Hsz Hlen Hfit Hch Htab D G data HDG Hdata Hsort Hin) in HPi.
  assert (NoDup (map (fun e : nat * qentry => N.to_nat (qPi e.2)) ents)) as ND by (rewrite HPi; apply NoDup_seq).
  pose proof (regQ_lt p enc aes prng c inputs Hsz Hlen Hfit t) as Hb'. assert (t ∈ bin (regQ p enc inputs t)) as Hm.
  { unfold binQ. apply elem_of_list_filter. split; [done|]. apply elem_of_seq. lia. }
  pose proof (ents_real p enc aes prng c serverSet bins inputs Hsz Hlen Hfit Hch Htab D G data HDG Hdata Hsort Hin _ t Hb' Hm) as Hr.
  apply elem_of_list_lookup in He as [i1 H1]. apply elem_of_list_lookup in Hr as [i2 H2].
  assert (i1 = i2) as Ei.
  { eapply NoDup_lookup; [exact ND| |]; change (map ?f ents) with (f <$> ents); rewrite list_lookup_fmap; [rewrite H1; cbn; reflexivity|]. rewrite H2. cbn. f_equal. unfold entQ. cbn [qPi]. rewrite Nat2N.id. reflexivity. }
  rewrite Ei, H2 in H1. apply (f_equal (fun o : option (nat * qentry) => match o with Some e => qReal e.2 | None => None end)) in H1. done.
Qed.

Lemma run_answers out i : drrn p enc aes prng c serverSet bins inputs = Some out -> masksFresh p (cMask c) serverSet inputs ->
  i ∈ out <-> exists x, inputs !! i = Some x /\ shiftedAnswer enc p serverSet bins x.
Proof using All.
  intros Ho HM. destruct (drrn_values p enc aes prng c serverSet bins inputs Hsz Hlen Hfit Hch Htab D G data HDG Hdata Hsort Hin) as (final & r' & Ed & HB & HV).
  rewrite Ed in Ho. injection Ho as <-.
  pose proof (total_fits p enc aes prng c inputs Hsz Hlen Hfit) as TF. rewrite <- (perm_P p enc aes prng c serverSet bins inputs Hsz Hlen Hfit Hch Htab D G data HDG Hdata Hsort Hin) in TF.
  assert (0 < dH p)%nat as HH by (destruct Hsz as (_ & HH & _); lia).
  assert (forall i j, (j < dH p)%nat -> ((i * dH p + j) / dH p = i)%nat) as Hdiv by (intros i' j' Hj'; rewrite Nat.add_comm, Nat.div_add, Nat.div_small by lia; lia).
  rewrite elem_of_remove_dups. split.
  - intros Hi. apply elem_of_list_fmap in Hi as ([i' s] & -> & Hs). apply elem_of_list_filter in Hs as [Hs Hr]. cbn [snd fst] in *.
    apply (reals_iff p enc aes prng c serverSet bins inputs Hsz Hlen Hfit Hch Htab D G data HDG Hdata Hsort Hin) in Hr as (q & Hq & -> & ->).
    assert (q / dH p < dN p)%nat as Hi by (apply Nat.div_lt_upper_bound; lia).
    destruct (lookup_lt_is_Some_2 inputs (q / dH p)%nat ltac:(lia)) as [x Hx]. exists x. split; [done|].
    assert (itemOf p inputs q = x) as Ex by (unfold itemOf; by rewrite Hx). rewrite Ex in Hs.
    apply HV in Hs as (b & e & m & He & Hm & Es). pose proof (valE_in p enc aes prng c serverSet bins inputs Hsz Hlen Hfit Hch Htab D G data HDG Hdata Hsort Hin b e He) as Hv.
    pose proof (blockPerm_length _ _ _ _ HB) as Lr. rewrite maskList_length in Lr. set (t := N.to_nat (qPi e)) in *.
    assert (t < P)%nat as Lq by (apply lookup_lt_Some in Hm; lia).
    assert (exists k, (k < P)%nat /\ m = cMask c (N.of_nat k) /\ ((t < dN p * dH p)%nat -> (k / dH p = t / dH p)%nat) /\ ((dN p * dH p <= t)%nat -> k = t)) as (k & Hk & -> & Hkt & Hge).
    { destruct (decide (t < dN p * dH p)%nat) as [L|L].
      - destruct (blockPerm_lookup (dH p) (dN p) _ r' (t / dH p) (t mod dH p) HB) as (j' & Hj' & E).
        + apply Nat.div_lt_upper_bound; lia.
        + apply Nat.mod_upper_bound. lia.
        + rewrite maskList_length. lia.
        + replace (t / dH p * dH p + t mod dH p)%nat with t in E by (pose proof (Nat.div_mod t (dH p) ltac:(lia)); lia). rewrite Hm in E.
          assert (t / dH p < dN p)%nat by (apply Nat.div_lt_upper_bound; lia).
          assert (t / dH p * dH p + j' < P)%nat as LP by nia. rewrite maskList_lookup in E by done. injection E as ->. eexists. split; [exact LP|]. split; [done|].
          split; [intros _; by apply Hdiv|lia].
      - rewrite (blockPerm_rest _ _ _ _ _ HB) in Hm by lia. rewrite maskList_lookup in Hm by done. injection Hm as <-. exists t. split; [done|]. split; [done|]. split; [lia|done]. }
    assert (N.of_nat k = N.of_nat q) as EK. { apply (HM _ _ (valE (b, e)) x); [lia|lia|done|by eapply elem_of_list_lookup_2|done]. }
    apply Nat2N.inj in EK. rewrite EK, (N.lxor_comm (cMask c (N.of_nat q))) in Es. apply (f_equal (fun z => N.lxor z (cMask c (N.of_nat q)))) in Es.
    rewrite !N.lxor_assoc, N.lxor_nilpotent, !N.lxor_0_r in Es.
    pose proof He as He'. apply (ents_cases p enc aes prng c serverSet bins inputs Hsz Hlen Hfit Hch Htab D G data HDG Hdata Hsort Hin) in He' as (Hb & [(q' & Hq' & ->)|(d & ->)]).
    2: { pose proof (dummy_pi b d He) as Hd. fold t in Hd. specialize (Hge Hd). lia. }
    unfold binQ in Hq'. apply elem_of_list_filter in Hq' as [Hr' Hq']. apply elem_of_seq in Hq'.
    assert (t = q') as Et by (subst t; unfold entQ; cbn [qPi]; lia). rewrite Et, EK in Hkt. specialize (Hkt ltac:(lia)).
    apply (hit_iff (q / dH p)%nat x Hx). exists (q' mod dH p)%nat. split; [apply Nat.mod_upper_bound; lia|]. cbn zeta. rewrite Hkt.
    replace (q' / dH p * dH p + q' mod dH p)%nat with q' by (pose proof (Nat.div_mod q' (dH p) ltac:(lia)); lia). rewrite Hr'. by rewrite <- Es.
  - intros (x & Hx & Hh).
    apply (hit_iff i x Hx) in Hh as (j & Hj & Ev). cbn zeta in Ev. set (q := (i * dH p + j)%nat) in *. set (b := regQ p enc inputs q) in *.
    assert (i < dN p)%nat as Hi by (apply lookup_lt_Some in Hx; lia).
    assert (b < dS p)%nat as Hb by (apply (regQ_lt p enc aes prng c inputs Hsz Hlen Hfit)).
    assert (q < dN p * dH p)%nat as Lq by (unfold q; nia).
    assert (q ∈ bin b) as Hm by (unfold binQ; apply elem_of_list_filter; split; [done|apply elem_of_seq; lia]).
    destruct (blockPerm_lookup (dH p) (dN p) _ r' i j HB Hi Hj) as (j' & Hj' & Er); [rewrite maskList_length; lia|].
    assert (i * dH p + j' < dN p * dH p)%nat as Lq' by nia. rewrite maskList_lookup in Er by lia. fold q in Er.
    assert (itemOf p inputs (i * dH p + j') = x) as Iq' by (unfold itemOf; by rewrite (Hdiv i j' Hj'), Hx).
    apply elem_of_list_fmap. exists (i, N.lxor (cMask c (N.of_nat (i * dH p + j'))) x). split; [done|]. apply elem_of_list_filter. split.
    + cbn [snd]. apply HV. exists b, (ent b q), (cMask c (N.of_nat (i * dH p + j'))). split.
      { by apply (ents_real p enc aes prng c serverSet bins inputs Hsz Hlen Hfit Hch Htab D G data HDG Hdata Hsort Hin). }
      split; [unfold entQ; cbn [qPi]; rewrite Nat2N.id; rewrite Er; done|]. rewrite Ev. apply N.lxor_comm.
    + apply (reals_iff p enc aes prng c serverSet bins inputs Hsz Hlen Hfit Hch Htab D G data HDG Hdata Hsort Hin). exists (i * dH p + j')%nat.
      split; [done|]. split; [by rewrite (Hdiv i j' Hj')|]. by rewrite Iq'.
Qed.
End run.

Lemma run_answer p enc aes prng c serverSet bins inputs : sizesOk p -> length inputs = dN p -> queriesFit enc p inputs -> choicesOk p c ->
  tableOk enc p serverSet bins -> masksFresh p (cMask c) serverSet inputs ->
  exists out, drrn p enc aes prng c serverSet bins inputs = Some out /\ NoDup out /\
    forall i, i ∈ out <-> exists x, inputs !! i = Some x /\ shiftedAnswer enc p serverSet bins x.
Proof.
  intros Hsz Hlen Hfit Hch Htab HM.
  assert (dSlots p < 2 ^ 32) as W by (destruct Hsz as (_ & _ & _ & _ & HS & _); change (2 ^ 32) with (2 * 2 ^ 31); lia).
  destruct (tableOf_ok enc p serverSet bins Htab W) as (data & Hdata & Hsort & Hin).
  assert (exists D G, domainParams (dSlots p) (N.of_nat (dS p)) 1 = Done (D, G)) as (D & G & HDG).
  { destruct Hsz as (_ & _ & HS & HB & HSl & HP). assert (N.of_nat (dS p) < 2 ^ 32) by nia.
    destruct (domain_ok (dSlots p) (N.of_nat (dS p)) 1) as (D & G & E & _); [lia|lia|change two64 with (2 ^ 32 * 2 ^ 32); nia|change two64 with (2 ^ 32 * 2 ^ 32); nia|].
    by exists D, G. }
  destruct (run_ok p enc aes prng c serverSet bins inputs Hsz Hlen Hfit Hch Htab) as (out & Ho & Hnd & _). exists out. split; [done|]. split; [done|].
  intros i. exact (run_answers p enc aes prng c serverSet bins inputs Hsz Hlen Hfit Hch Htab D G data HDG Hdata Hsort Hin out i Ho HM).
Qed.

Lemma run_reports p enc aes prng c serverSet bins inputs : sizesOk p -> length inputs = dN p -> queriesFit enc p inputs -> choicesOk p c ->
  tableOk enc p serverSet bins -> masksFresh p (cMask c) serverSet inputs -> 0 ∉ inputs ->
  exists out, drrn p enc aes prng c serverSet bins inputs = Some out /\ NoDup out /\
    forall i, i ∈ out <-> exists x, inputs !! i = Some x /\ shiftedHit enc p serverSet bins x.
Proof.
  intros Hsz Hlen Hfit Hch Htab HM H0. destruct (run_answer p enc aes prng c serverSet bins inputs Hsz Hlen Hfit Hch Htab HM) as (out & Ho & Hnd & HI). exists out. split; [done|]. split; [done|].
  intros i. rewrite HI. apply exist_proper. intros x. split; intros [Hx (j & Hj & H)]; (split; [done|]); exists j; (split; [done|]); [|by left].
  destruct H as [H|[-> _]]; [done|]. exfalso. apply H0. by eapply elem_of_list_lookup_2.
Qed.
