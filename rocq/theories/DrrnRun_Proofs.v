(** Complete runs of the PIR-PSI model, block size one. *)
From Verif Require Import Base Partition_Model CuckooIndex_Model Rr17_Model Rr17_Proofs Bgi_Model Bgi_Spec Bgi_Proofs BgiFull_Proofs Drrn_Model Drrn_Spec
  Drrn_Proofs DrrnMask_Proofs DrrnClient_Proofs DrrnServer_Proofs.

Local Notation key := (list N * list N)%type.

Lemma concat_imap_map {A B} (f : nat -> A -> B) (ls : list (list A)) :
  concat (imap (fun b l => map (f b) l) ls) = map (fun e : nat * A => f e.1 e.2) (concat (imap (fun b l => map (pair b) l) ls)).
Proof.
  assert (forall k, concat (imap (fun b l => map (f (k + b)%nat) l) ls) = map (fun e : nat * A => f e.1 e.2) (concat (imap (fun b l => map (pair (k + b)%nat) l) ls))) as G.
  { induction ls as [|l ls IH]; intros k; [done|]. cbn [imap concat]. rewrite map_app. f_equal.
    - rewrite map_map. apply map_ext. done.
    - specialize (IH (S k)). etrans; [|etrans; [exact IH|]].
      + f_equal. apply imap_ext. intros b l' _. cbn. by rewrite Nat.add_succ_r.
      + f_equal. f_equal. apply imap_ext. intros b l' _. cbn. by rewrite Nat.add_succ_r. }
  exact (G 0%nat).
Qed.
Lemma concat_imap_snd {A} (ls : list (list A)) : map snd (concat (imap (fun b l => map (pair b) l) ls)) = concat ls.
Proof.
  rewrite <- (concat_imap_map (fun _ x => x)). f_equal. apply list_eq. intros b. rewrite list_lookup_imap. destruct (ls !! b) as [l|]; [|done]. cbn. by rewrite map_id.
Qed.
Lemma elem_ents {A} (ls : list (list A)) b x : (b, x) ∈ concat (imap (fun b l => map (pair b) l) ls) <-> exists l, ls !! b = Some l /\ x ∈ l.
Proof.
  rewrite elem_of_list_In, in_concat. split.
  - intros (l & Hl & Hx). apply elem_of_list_In, elem_of_lookup_imap in Hl as (b' & l' & -> & Hl). apply in_map_iff in Hx as (y & E & Hy). injection E as -> ->.
    exists l'. split; [done|]. by apply elem_of_list_In.
  - intros (l & Hl & Hx). exists (map (pair b) l). split.
    + apply elem_of_list_In. apply elem_of_lookup_imap. by exists b, l.
    + apply in_map. by apply elem_of_list_In.
Qed.

Section run.
Variable (p : dparams) (enc : N -> N) (aes : bool -> N -> N) (prng : N -> N * N) (c : dchoices) (serverSet bins inputs : list N).
Hypothesis Hsz : sizesOk p.
Hypothesis Hlen : length inputs = dN p.
Hypothesis Hfit : queriesFit enc p inputs.
Hypothesis Hch : choicesOk p c.
Hypothesis Htab : tableOk enc p serverSet bins.
Variable (D G : N) (data : list (N * N)).
Hypothesis HDG : domainParams (dSlots p) (N.of_nat (dS p)) 1 = Done (D, G).
Hypothesis Hdata : tableOf bins serverSet = Some data.
Hypothesis Hsort : sortedTable data.
Hypothesis Hin : forall e, e ∈ data <-> exists c w, bins !! c = Some w /\ w ≠ emptyWord /\ serverSet !! N.to_nat (wordIdx w) = Some e.1 /\ e.2 = N.of_nat c.

Local Notation rows := (rowsQ p enc aes prng c inputs D G).
Local Notation ent := (entQ p enc aes prng c inputs D G).
Local Notation bin := (binQ p enc inputs).
Local Notation P := (permSize p).
Definition ents : list (nat * qentry) := concat (imap (fun b l => map (pair b) l) rows).
Definition valE (e : nat * qentry) : N :=
  N.lxor (shareOf p aes data e.1 (qK0 e.2)) (shareOf p aes data e.1 (qK1 e.2)).

Lemma ents_cases b e : (b, e) ∈ ents -> (b < dS p)%nat /\ ((exists q, q ∈ bin b /\ e = ent b q) \/ exists d, e = dummyEntry (N.to_nat D) (N.to_nat G) d).
Proof using All.
  intros He. apply elem_ents in He as (row & Hr & He). assert (b < dS p)%nat as Hb. { apply lookup_lt_Some in Hr. by rewrite rowsQ_length in Hr. }
  split; [done|]. destruct (rowsQ_lookup p enc aes prng c inputs D G b Hb) as [d' E]. rewrite E in Hr. injection Hr as <-.
  apply elem_of_app in He as [He|He]; apply elem_of_list_fmap in He as (x & -> & Hx); [left; by exists x|right; by exists x].
Qed.
Lemma ents_real b q : (b < dS p)%nat -> q ∈ bin b -> (b, ent b q) ∈ ents.
Proof using All.
  intros Hb Hq. destruct (rowsQ_lookup p enc aes prng c inputs D G b Hb) as [d' E]. apply elem_ents. eexists. split; [exact E|].
  apply elem_of_app. left. apply elem_of_list_fmap. by exists q.
Qed.
Lemma perm_P : P = (dS p * dBin p)%nat.
Proof using All. unfold permSize. destruct Hsz as (-> & _). lia. Qed.
Lemma ents_pi : piOf p rows = map (fun e => N.to_nat (qPi e.2)) ents.
Proof using All.
  unfold piOf. rewrite perm_P, Nat.sub_diag. cbn [replicate]. rewrite app_nil_r. unfold ents. rewrite <- (concat_imap_snd rows) at 1. by rewrite !map_map.
Qed.
Lemma ents_length : length ents = P.
Proof using All. rewrite <- (map_length (fun e => N.to_nat (qPi e.2))), <- ents_pi. rewrite (Permutation_length (pi_perm p enc aes prng c inputs Hsz Hlen Hfit D G HDG)). apply seq_length. Qed.

Lemma keys_shape b e : (b, e) ∈ ents -> (length (qK0 e).1 = S (N.to_nat D) /\ length (qK0 e).2 = N.to_nat G) /\
  (length (qK1 e).1 = S (N.to_nat D) /\ length (qK1 e).2 = N.to_nat G).
Proof using All.
  intros He. destruct (domain_facts p aes data D G Hsz HDG Hsort) as (HG & _).
  apply ents_cases in He as (_ & [(q & _ & ->)|(d & ->)]).
  - destruct (keyGen_ok aes prng (N.to_nat D) (N.to_nat G) (slotQ p enc inputs q - loOf p b) (cSeed c q) ltac:(lia)) as (s0 & s1 & cws & g & Ek & Lc & Lg & _).
    unfold entQ, keysQ. rewrite Ek. cbn. by rewrite Lc, Lg.
  - unfold dummyEntry. cbn [qK0 qK1 fst snd]. by rewrite !replicate_length.
Qed.

Lemma shares_ok (sel : qentry -> key) order : order ≡ₚ seq 0 (dS p) ->
  (forall b e, (b, e) ∈ ents -> length (sel e).1 = S (N.to_nat D) /\ length (sel e).2 = N.to_nat G) ->
  serverShares p aes (map (map sel) rows) data order = Some (map (fun e => shareOf p aes data e.1 (sel e.2)) ents).
Proof using All.
  intros HO HK. rewrite (serverShares_ok p aes data D G Hsz HDG Hsort _ order HO).
  - f_equal. unfold ents. rewrite <- (concat_imap_map (fun b e => shareOf p aes data b (sel e))). f_equal. apply list_eq. intros b.
    rewrite !list_lookup_imap. change (map (map sel) rows) with (map sel <$> rows). rewrite list_lookup_fmap. destruct (rows !! b) as [row|]; [|done]. cbn. f_equal.
    by rewrite map_map.
  - rewrite map_length. apply rowsQ_length.
  - apply Forall_forall. intros ks Hk. apply elem_of_list_fmap in Hk as (row & -> & Hrow). rewrite map_length.
    pose proof (rowsQ_row p enc aes prng c inputs Hsz Hlen Hfit D G HDG) as HR. rewrite Forall_forall in HR. by apply HR.
  - apply Forall_forall. intros ks Hk. apply elem_of_list_fmap in Hk as (row & -> & Hrow). apply Forall_forall. intros kg Hkg.
    apply elem_of_list_fmap in Hkg as (e & -> & He). apply elem_of_list_lookup in Hrow as [b Hb]. apply (HK b e). apply elem_ents. by exists row.
Qed.

(** What a real query retrieves. *)
Lemma valE_real b q : (b < dS p)%nat -> q ∈ bin b ->
  valE (b, ent b q) = selectItems (fun x => x =? slotQ p enc inputs q - loOf p b) (firstOf p data b) (itemsOf p data b).
Proof using All.
  intros Hb Hq. destruct (domain_facts p aes data D G Hsz HDG Hsort) as (HG & HDS & _). destruct (lo_hi p aes data D G Hsz HDG Hsort b Hb) as [H1 H2].
  unfold binQ in Hq. apply elem_of_list_filter in Hq as [Hr Hq]. apply (regQ_iff p enc aes prng c inputs Hsz Hlen Hfit) in Hr.
  apply (region_slots p Hsz) in Hr; [|done]. unfold valE, shareOf. cbn [fst snd]. rewrite selectItems_xor.
  destruct (keyGen_ok aes prng (N.to_nat D) (N.to_nat G) (slotQ p enc inputs q - loOf p b) (cSeed c q) ltac:(lia)) as (s0 & s1 & cws & g & Ek & Lc & Lg & _ & HX).
  apply selectItems_ext. intros e He. pose proof (firstOf_le p aes data D G Hsz HDG Hsort b e He) as F1. pose proof (firstOf_lo p aes data D G Hsz HDG Hsort b) as F2.
  apply (itemsOf_in p aes data D G Hsz HDG Hsort) in He as [_ He]. destruct (HX ltac:(lia) (e.2 - firstOf p data b) ltac:(lia)) as (b0 & b1 & E0 & E1 & X).
  unfold entQ, keysQ. rewrite Ek. cbn [qK0 qK1 fst snd]. unfold keyBit. cbn [fst snd]. by rewrite E0, E1.
Qed.
Lemma valE_dummy b d : valE (b, dummyEntry (N.to_nat D) (N.to_nat G) d) = 0.
Proof using All. unfold valE. cbn. apply N.lxor_nilpotent. Qed.
Lemma valE_in b e : (b, e) ∈ ents -> valE (b, e) ∈ 0 :: serverSet.
Proof using All.
  intros He. apply ents_cases in He as (Hb & [(q & Hq & ->)|(d & ->)]); [|rewrite valE_dummy; left].
  rewrite valE_real by done. destruct (selectItems_point (slotQ p enc inputs q - loOf p b) (firstOf p data b) (itemsOf p data b)) as [(e & He & _ & ->)|[_ ->]].
  - by apply (itemsOf_sorted p aes data D G Hsz HDG Hsort).
  - intros e He. by apply (firstOf_le p aes data D G Hsz HDG Hsort).
  - right. apply (itemsOf_in p aes data D G Hsz HDG Hsort) in He as [He _]. apply Hin in He as (c' & w & _ & _ & Hx & _). by eapply elem_of_list_lookup_2.
  - left.
Qed.
Lemma valE_hit b q x : (b < dS p)%nat -> q ∈ bin b -> (x, slotQ p enc inputs q) ∈ data -> firstOf p data b = loOf p b -> valE (b, ent b q) = x.
Proof using All.
  intros Hb Hq Hx Hf. rewrite valE_real by done. unfold binQ in Hq. apply elem_of_list_filter in Hq as [Hr Hq]. apply (regQ_iff p enc aes prng c inputs Hsz Hlen Hfit) in Hr.
  apply (region_slots p Hsz) in Hr; [|done].
  destruct (selectItems_point (slotQ p enc inputs q - loOf p b) (firstOf p data b) (itemsOf p data b)) as [(e & He & E2 & ->)|[Hno _]].
  - by apply (itemsOf_sorted p aes data D G Hsz HDG Hsort).
  - intros e He. by apply (firstOf_le p aes data D G Hsz HDG Hsort).
  - apply (itemsOf_in p aes data D G Hsz HDG Hsort) in He as [He _]. rewrite Hf in E2. assert (e.2 = slotQ p enc inputs q) as E3 by lia.
    apply elem_of_list_lookup in He as [i Hi]. apply elem_of_list_lookup in Hx as [j Hj]. destruct (Nat.lt_trichotomy i j) as [L|[L|L]].
    + pose proof (sorted_lookup data i j _ _ Hsort Hi Hj L) as Q. cbn in Q. lia.
    + rewrite L in Hi. rewrite Hi in Hj. injection Hj as ->. done.
    + pose proof (sorted_lookup data j i _ _ Hsort Hj Hi L) as Q. cbn in Q. lia.
  - exfalso. apply (Hno (x, slotQ p enc inputs q)); [|cbn [snd]; rewrite Hf; lia]. apply (itemsOf_in p aes data D G Hsz HDG Hsort). split; [done|]. cbn [snd]. lia.
Qed.

(** The run: what is matched. *)
Lemma drrn_values : exists (final : list N) r', drrn p enc aes prng c serverSet bins inputs =
    Some (remove_dups (map fst (filter (fun e : nat * N => e.2 ∈ final) (omap qReal (concat rows))))) /\
  blockPerm (dH p) (dN p) (maskList (cMask c) P 0) r' /\
  forall v, v ∈ final <-> exists b e m, (b, e) ∈ ents /\ r' !! N.to_nat (qPi e) = Some m /\ v = N.lxor (valE (b, e)) m.
Proof using All.
  destruct Hch as (HP1 & Ls & Hsg & HO0 & HO1). destruct (domain_facts p aes data D G Hsz HDG Hsort) as (HG & _).
  pose proof (total_fits p enc aes prng c inputs Hsz Hlen Hfit) as TF.
  destruct (sigmaMasks_ok (dH p) (cSigmas c) ltac:(destruct Hsz as (_ & HH & _); lia) Hsg [] (maskList (cMask c) P 0)) as (r' & Er & HB).
  { rewrite Ls, maskList_length, perm_P. exact TF. }
  cbn [app length] in Er. rewrite Ls in HB. pose proof (blockPerm_length _ _ _ _ HB) as Lr. rewrite maskList_length in Lr.
  pose proof (pi_perm p enc aes prng c inputs Hsz Hlen Hfit D G HDG) as HPi.
  set (sh0 := map (fun e => shareOf p aes data e.1 (qK0 e.2)) ents). set (sh1 := map (fun e => shareOf p aes data e.1 (qK1 e.2)) ents).
  destruct (final_ok P (piOf p rows) (cPi1 c) (maskList (cMask c) P 1) (maskList (cMask c) P 2) r' sh0 sh1) as (pi0 & piS0 & rs & final & E1 & E2 & E3 & Lf & K).
  - exact HP1.
  - apply Forall_forall. intros k Hk. rewrite HPi in Hk. apply elem_of_seq in Hk. lia.
  - rewrite HPi. apply seq_length.
  - apply maskList_length.
  - apply maskList_length.
  - done.
  - subst sh0. rewrite map_length. apply ents_length.
  - subst sh1. rewrite map_length. apply ents_length.
  - exists final, r'. split; [|split; [done|]].
    + unfold drrn. rewrite (clientLayout_ok p enc aes prng c inputs Hsz Hlen Hfit D G HDG) by lia. rewrite Hdata, E1, Er, E2.
      rewrite (shares_ok qK0 _ HO0), (shares_ok qK1 _ HO1); [fold sh0 sh1; rewrite E3; done| |]; intros b e He; by apply (keys_shape b).
    + assert (forall i b e, ents !! i = Some (b, e) -> exists m, r' !! N.to_nat (qPi e) = Some m /\ final !! i = Some (N.lxor (valE (b, e)) m)) as Hpt.
      { intros i b e Hi. assert (piOf p rows !! i = Some (N.to_nat (qPi e))) as Hpi.
        { rewrite ents_pi. change (map ?f ents) with (f <$> ents). rewrite list_lookup_fmap, Hi. done. }
        assert (N.to_nat (qPi e) < P)%nat as Lq. { assert (N.to_nat (qPi e) ∈ seq 0 P) as I by (rewrite <- HPi; by eapply elem_of_list_lookup_2). apply elem_of_seq in I. lia. }
        destruct (lookup_lt_is_Some_2 r' (N.to_nat (qPi e)) ltac:(lia)) as [m Hm]. exists m. split; [done|].
        rewrite (K i (shareOf p aes data b (qK0 e)) (shareOf p aes data b (qK1 e)) (N.to_nat (qPi e)) m); [done| | |done|done].
        - subst sh0. change (map ?f ents) with (f <$> ents). rewrite list_lookup_fmap, Hi. done.
        - subst sh1. change (map ?f ents) with (f <$> ents). rewrite list_lookup_fmap, Hi. done. }
      intros v. split.
      * intros Hv. apply elem_of_list_lookup in Hv as [i Hi]. destruct (lookup_lt_is_Some_2 ents i) as [[b e] He]; [rewrite ents_length, <- Lf; by eapply lookup_lt_Some|].
        destruct (Hpt i b e He) as (m & Hm & Hf). rewrite Hi in Hf. injection Hf as ->. exists b, e, m. split; [by eapply elem_of_list_lookup_2|]. done.
      * intros (b & e & m & He & Hm & ->). apply elem_of_list_lookup in He as [i Hi]. destruct (Hpt i b e Hi) as (m' & Hm' & Hf). rewrite Hm in Hm'. injection Hm' as <-.
        by eapply elem_of_list_lookup_2.
Qed.

Lemma reals_iff i s : (i, s) ∈ omap qReal (concat rows) <->
  exists q, (q < dN p * dH p)%nat /\ i = (q / dH p)%nat /\ s = N.lxor (cMask c (N.of_nat q)) (itemOf p inputs q).
Proof using All.
  rewrite elem_of_list_omap. split.
  - intros (e & He & Hr). rewrite <- (concat_imap_snd rows) in He. apply elem_of_list_fmap in He as ([b e'] & -> & He). apply ents_cases in He as (_ & [(q & Hq & E)|(d & E)]).
    + cbn [snd] in Hr. rewrite E in Hr. cbn in Hr. injection Hr as <- <-. exists q. unfold binQ in Hq. apply elem_of_list_filter in Hq as [_ Hq]. apply elem_of_seq in Hq. split; [lia|]. done.
    + cbn [snd] in Hr. rewrite E in Hr. discriminate.
  - intros (q & Hq & -> & ->). pose proof (regQ_lt p enc aes prng c inputs Hsz Hlen Hfit q) as Hb. assert (q ∈ bin (regQ p enc inputs q)) as Hm.
    { unfold binQ. apply elem_of_list_filter. split; [done|]. apply elem_of_seq. lia. }
    exists (ent (regQ p enc inputs q) q). split; [|done]. rewrite <- (concat_imap_snd rows). apply elem_of_list_fmap. eexists (_, _). split; [|by apply ents_real]. done.
Qed.

Lemma drrn_sound out i : drrn p enc aes prng c serverSet bins inputs = Some out -> masksFresh p (cMask c) serverSet inputs -> 0 ∉ inputs -> i ∈ out ->
  exists x, inputs !! i = Some x /\ x ∈ serverSet.
Proof using All.
  intros Ho HM H0 Hi. destruct drrn_values as (final & r' & Ed & HB & HV). rewrite Ed in Ho. injection Ho as <-.
  apply elem_of_remove_dups, elem_of_list_fmap in Hi as ([i' s] & -> & Hs). apply elem_of_list_filter in Hs as [Hs Hr]. cbn [snd fst] in *.
  apply reals_iff in Hr as (q & Hq & -> & ->). pose proof (total_fits p enc aes prng c inputs Hsz Hlen Hfit) as TF. rewrite <- perm_P in TF.
  assert (q / dH p < dN p)%nat as Hi by (destruct Hsz as (_ & HH & _); apply Nat.div_lt_upper_bound; lia).
  destruct (lookup_lt_is_Some_2 inputs (q / dH p)%nat ltac:(lia)) as [x Hx]. exists x. split; [done|].
  assert (itemOf p inputs q = x) as Ex by (unfold itemOf; by rewrite Hx). rewrite Ex in Hs.
  apply HV in Hs as (b & e & m & He & Hm & Es). pose proof (valE_in b e He) as Hv.
  assert (exists k, (k < P)%nat /\ m = cMask c (N.of_nat k)) as (k & Hk & ->).
  { pose proof (blockPerm_length _ _ _ _ HB) as Lr. rewrite maskList_length in Lr.
    assert (N.to_nat (qPi e) < P)%nat as Lq by (apply lookup_lt_Some in Hm; lia).
    destruct (decide (N.to_nat (qPi e) < dN p * dH p)%nat) as [L|L].
    - set (t := N.to_nat (qPi e)) in *. assert (0 < dH p)%nat by (destruct Hsz as (_ & HH & _); lia).
      destruct (blockPerm_lookup (dH p) (dN p) _ r' (t / dH p) (t mod dH p) HB) as (j' & Hj' & E).
      + apply Nat.div_lt_upper_bound; lia.
      + apply Nat.mod_upper_bound. lia.
      + rewrite maskList_length. lia.
      + replace (t / dH p * dH p + t mod dH p)%nat with t in E by (pose proof (Nat.div_mod t (dH p) ltac:(lia)); lia). rewrite Hm in E.
        assert (t / dH p < dN p)%nat by (apply Nat.div_lt_upper_bound; lia).
        assert (t / dH p * dH p + j' < P)%nat as LP by nia. rewrite maskList_lookup in E by done. injection E as ->. eexists. split; [exact LP|]. done.
    - rewrite (blockPerm_rest _ _ _ _ _ HB) in Hm by lia. rewrite maskList_lookup in Hm by done. injection Hm as <-. exists (N.to_nat (qPi e)). done. }
  assert (N.of_nat k = N.of_nat q) as EK.
  { apply (HM _ _ (valE (b, e)) x); [lia|lia|done|by eapply elem_of_list_lookup_2|done]. }
  rewrite EK, (N.lxor_comm (cMask c (N.of_nat q))) in Es. apply (f_equal (fun z => N.lxor z (cMask c (N.of_nat q)))) in Es.
  rewrite !N.lxor_assoc, N.lxor_nilpotent, !N.lxor_0_r in Es. rewrite <- Es in Hv. apply elem_of_cons in Hv as [Hv|Hv]; [|done].
  exfalso. apply H0. rewrite <- Hv. by eapply elem_of_list_lookup_2.
Qed.

Lemma drrn_complete out i x : drrn p enc aes prng c serverSet bins inputs = Some out -> inputs !! i = Some x -> x ∈ serverSet ->
  (forall k j, serverSet !! k = Some x -> (j < dH p)%nat -> (exists c w, bins !! c = Some w /\ w ≠ emptyWord /\ N.to_nat (wordIdx w) = k /\ N.of_nat c = itemSlot enc (dSlots p) x j) ->
     firstOf p data (regQ p enc inputs (i * dH p + j)) = loOf p (regQ p enc inputs (i * dH p + j))) ->
  i ∈ out.
Proof using All.
  intros Ho Hx Hs HF. destruct drrn_values as (final & r' & Ed & HB & HV). rewrite Ed in Ho. injection Ho as <-.
  pose proof (total_fits p enc aes prng c inputs Hsz Hlen Hfit) as TF. rewrite <- perm_P in TF.
  assert (i < dN p)%nat as Hi by (apply lookup_lt_Some in Hx; lia). assert (0 < dH p)%nat as HH by (destruct Hsz as (_ & HH & _); lia).
  apply elem_of_list_lookup in Hs as [k Hk]. destruct Htab as (_ & HPerm & Hpl).
  assert (k ∈ map (fun w => N.to_nat (wordIdx w)) (filter (fun w => w ≠ emptyWord) bins)) as Hkin.
  { rewrite HPerm. apply elem_of_seq. apply lookup_lt_Some in Hk. lia. }
  apply elem_of_list_fmap in Hkin as (w & Ek & Hw). apply elem_of_list_filter in Hw as [Hne Hw]. apply elem_of_list_lookup in Hw as [cc Hc].
  rewrite Ek in Hk. destruct (Hpl cc w x Hc Hne Hk) as (j & Hj & Ec).
  assert (forall j, (j < dH p)%nat -> (i * dH p + j < dN p * dH p)%nat /\ ((i * dH p + j) / dH p = i)%nat /\ ((i * dH p + j) mod dH p = j)%nat /\ itemOf p inputs (i * dH p + j) = x) as Hq.
  { intros j' Hj'. assert ((i * dH p + j') / dH p = i)%nat as E1 by (rewrite Nat.add_comm, Nat.div_add by lia; rewrite Nat.div_small; lia).
    split; [nia|]. split; [done|]. split; [rewrite Nat.add_comm, Nat.mod_add by lia; by apply Nat.mod_small|]. unfold itemOf. by rewrite E1, Hx. }
  destruct (Hq j Hj) as (Lq & Dq & Mq & Iq). set (q := (i * dH p + j)%nat) in *.
  assert (slotQ p enc inputs q = N.of_nat cc) as Es by (unfold slotQ; rewrite Iq, Mq; by rewrite Ec).
  set (b := regQ p enc inputs q) in *. assert (b < dS p)%nat as Hb by (apply (regQ_lt p enc aes prng c inputs Hsz Hlen Hfit)).
  assert (q ∈ bin b) as Hm by (unfold binQ; apply elem_of_list_filter; split; [done|apply elem_of_seq; lia]).
  assert (valE (b, ent b q) = x) as Ev.
  { apply valE_hit; [done|done| |].
    - rewrite Es. apply Hin. exists cc, w. done.
    - apply (HF k j); [by rewrite Ek|done|]. exists cc, w. split; [done|]. split; [done|]. split; [done|]. done. }
  destruct (blockPerm_lookup (dH p) (dN p) _ r' i j HB Hi Hj) as (j' & Hj' & Er); [rewrite maskList_length; lia|].
  destruct (Hq j' Hj') as (Lq' & Dq' & Mq' & Iq'). rewrite maskList_lookup in Er by lia. fold q in Er.
  apply elem_of_remove_dups, elem_of_list_fmap. exists (i, N.lxor (cMask c (N.of_nat (i * dH p + j'))) x). split; [done|]. apply elem_of_list_filter. split.
  - cbn [snd]. apply HV. exists b, (ent b q), (cMask c (N.of_nat (i * dH p + j'))). split; [by apply ents_real|]. split.
    + unfold entQ. cbn [qPi]. rewrite Nat2N.id. rewrite Er. do 2 f_equal.
    + rewrite Ev. apply N.lxor_comm.
  - apply reals_iff. exists (i * dH p + j')%nat. split; [done|]. split; [done|]. by rewrite Iq'.
Qed.

Lemma lead_first b : regionsLead p bins -> (b < dS p)%nat -> itemsOf p data b ≠ [] -> firstOf p data b = loOf p b.
Proof using All.
  intros HL Hb Hne. destruct (itemsOf p data b) as [|e l] eqn:El; [done|]. assert (e ∈ itemsOf p data b) as He by (rewrite El; left).
  pose proof He as He'. apply (itemsOf_in p aes data D G Hsz HDG Hsort) in He' as [Hd Hr]. apply Hin in Hd as (cc & w & Hc & Hw & _ & E2).
  assert (inRegion (dSlots p) (N.of_nat (dS p)) (N.of_nat b) (N.of_nat cc)) as HI by (rewrite <- E2; by apply (region_slots p Hsz)).
  destruct (HL (N.of_nat b) cc w Hc Hw HI) as (c0 & w0 & Hc0 & Hw0 & HI0 & Hmin).
  apply (region_slots p Hsz) in HI0; [|done]. assert (N.of_nat c0 <= loOf p b) as Hle. { apply Hmin. apply (region_slots p Hsz); [done|]. lia. }
  assert (exists x0, serverSet !! N.to_nat (wordIdx w0) = Some x0) as [x0 Hx0].
  { apply lookup_lt_is_Some_2. destruct Htab as (_ & HPerm & _). assert (N.to_nat (wordIdx w0) ∈ seq 0 (length serverSet)) as I; [|apply elem_of_seq in I; lia].
    rewrite <- HPerm. apply elem_of_list_fmap. exists w0. split; [done|]. apply elem_of_list_filter. split; [done|]. by eapply elem_of_list_lookup_2. }
  assert ((x0, N.of_nat c0) ∈ itemsOf p data b) as H0. { apply (itemsOf_in p aes data D G Hsz HDG Hsort). split; [|cbn [snd]; lia]. apply Hin. by exists c0, w0. }
  pose proof (firstOf_le p aes data D G Hsz HDG Hsort b _ H0) as F1. pose proof (firstOf_lo p aes data D G Hsz HDG Hsort b) as F2. cbn [snd] in F1. lia.
Qed.
End run.
