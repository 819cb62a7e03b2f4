(** What the servers of the PIR-PSI protocol learn. *)
From Verif Require Import Base Partition_Model CuckooIndex_Model Bgi_Model Bgi_Spec Bgi_Proofs BgiFull_Proofs Drrn_Model Drrn_Spec Drrn_Proofs DrrnMask_Proofs DrrnClient_Proofs DrrnServer_Proofs DrrnRun_Proofs DrrnTop_Proofs.
From Verif Require Import DrrnView_Model BgiPrivacy_Spec BgiPrivacy_Proofs Order_Spec Order_Proofs DrrnView_Spec.

(** ** Permutations *)

Lemma clientPerm_ok P (pi pi1 : list nat) (piS1 s : list N) : pi1 ≡ₚ seq 0 P -> Forall (fun k => (k < P)%nat) pi -> length s = P ->
  exists pi0 piS0, clientPerm pi pi1 piS1 s = Some (pi0, piS0) /\ length pi0 = length pi /\ forall i k, pi !! i = Some k -> exists y, pi0 !! i = Some y /\ pi1 !! y = Some k.
Proof.
  intros HP HF Ls. assert (length pi1 = P) as Lpi1 by (rewrite HP; apply seq_length). assert (NoDup pi1) as ND by (rewrite HP; apply NoDup_seq).
  set (inv := invert 0 pi1 (replicate (length pi1) 0%nat)).
  assert (forall k, (k < P)%nat -> exists i, inv !! k = Some i /\ pi1 !! i = Some k /\ (i < P)%nat) as Hinv.
  { intros k Hk. assert (k ∈ pi1) as Hin by (rewrite HP; apply elem_of_seq; lia). apply elem_of_list_lookup in Hin as [i Hi].
    exists i. split; [|split; [done|apply lookup_lt_Some in Hi; lia]]. subst inv. rewrite (invert_ok pi1 0 _ i k ND Hi); [done|]. rewrite replicate_length. lia. }
  set (g0 := fun k => default 0%nat (inv !! k)). set (gp := fun e : nat * N => N.lxor e.2 (default 0 (s !! e.1))).
  rewrite Forall_forall in HF. exists (map g0 pi), (map gp (zip pi piS1)). split; [|split; [apply map_length|]].
  - unfold clientPerm. fold inv. rewrite (mapM_lookup _ pi g0), (mapM_lookup _ (zip pi piS1) gp); [done| |].
    + intros [k v] Hx. apply elem_of_zip_l in Hx. destruct (lookup_lt_is_Some_2 s k ltac:(rewrite Ls; by apply HF)) as [w Hw]. unfold gp. cbn [fst snd]. by rewrite Hw.
    + intros k Hx. destruct (Hinv k (HF k Hx)) as (i & Hi & _). unfold g0. by rewrite Hi.
  - intros i k Hk. destruct (Hinv k ltac:(apply HF; by eapply elem_of_list_lookup_2)) as (y & Hy & Hy' & _). exists y. split; [|done]. change (map g0 pi) with (g0 <$> pi).
    rewrite list_lookup_fmap, Hk. cbn. unfold g0. by rewrite Hy.
Qed.

Lemma placeOf_ok (pi pi1 pi0 : list nat) i k : NoDup pi -> length pi0 = length pi -> (forall i k, pi !! i = Some k -> exists y, pi0 !! i = Some y /\ pi1 !! y = Some k) ->
  pi !! i = Some k -> placeOf pi1 pi0 k = Some i.
Proof.
  intros ND L H Hi. unfold placeOf. destruct (H i k Hi) as (y & Hy & Hy'). assert (list_find (fun y => pi1 !! y = Some k) pi0 = Some (i, y)) as ->; [|done].
  apply list_find_Some. split; [done|]. split; [done|]. intros j z Hz Hj Hzk. destruct (lookup_lt_is_Some_2 pi j) as [k' Hk']; [apply lookup_lt_Some in Hz; lia|].
  destruct (H j k' Hk') as (z' & Hz' & Hzk'). rewrite Hz in Hz'. injection Hz' as <-. rewrite Hzk in Hzk'. injection Hzk' as <-.
  pose proof (NoDup_lookup pi i j k ND Hi Hk'). lia.
Qed.

Lemma imap_rows_lookup {A} (ls : list (list A)) m i b x : Forall (fun l => length l = m) ls -> concat (imap (fun b l => map (pair b) l) ls) !! i = Some (b, x) -> (i / m)%nat = b.
Proof.
  intros HF Hi. assert (Forall (fun l => length l = m) (imap (fun b l => map (pair b) l) ls)) as HF2.
  { rewrite Forall_forall in HF. apply Forall_forall. intros l Hl. apply elem_of_lookup_imap_1 in Hl as (b' & l' & -> & Hl'). rewrite map_length. apply HF. by eapply elem_of_list_lookup_2. }
  pose proof (length_concat_fixed _ _ HF2) as L. pose proof (lookup_lt_Some _ _ _ Hi) as Li. rewrite L, imap_length in Li. assert (m <> 0)%nat as Hm by (intros ->; lia).
  assert (i / m < length ls)%nat as Hb by (apply Nat.div_lt_upper_bound; lia). destruct (lookup_lt_is_Some_2 ls (i / m)%nat Hb) as [l Hl].
  pose proof (lookup_concat_fixed _ m HF2 (i / m)%nat (i mod m)%nat (map (pair (i / m)%nat) l)) as K. rewrite list_lookup_imap, Hl in K. specialize (K eq_refl ltac:(by apply Nat.mod_upper_bound)).
  replace (i / m * m + i mod m)%nat with i in K by (pose proof (Nat.div_mod i m Hm); lia). rewrite Hi in K. symmetry in K. change (map ?f l) with (f <$> l) in K.
  rewrite list_lookup_fmap in K. destruct (l !! (i mod m)%nat); [|done]. cbn in K. by injection K.
Qed.

(** ** A run *)

Section run.
Variable (p : dparams) (enc : N -> N) (aes : bool -> N -> N) (prng : N -> N * N) (c : dchoices) (serverSet bins inputs : list N).
Hypothesis Hsz : sizesOk p.
Hypothesis Hlen : length inputs = dN p.
Hypothesis Hfit : queriesFit enc p inputs.
Hypothesis Hch : choicesOk p c.
Hypothesis Htab : tableOk enc p serverSet bins.
Variable (D G : N) (data : list (N * N)).
Hypothesis HDG : domainParams (dSlots p) (N.of_nat (dS p)) 1 = Done (D, G).
Hypothesis Hdata : tableOf bins serverSet = Some data.
Hypothesis Hsort : sortedTable data.
Hypothesis Hin : forall e, e ∈ data <-> exists c w, bins !! c = Some w /\ w ≠ emptyWord /\ serverSet !! N.to_nat (wordIdx w) = Some e.1 /\ e.2 = N.of_nat c.

Local Notation rows := (rowsQ p enc aes prng c inputs D G).
Local Notation ent := (entQ p enc aes prng c inputs D G).
Local Notation bin := (binQ p enc inputs).
Local Notation P := (permSize p).
Local Notation ents := (DrrnRun_Proofs.ents p enc aes prng c inputs D G).
Local Notation valE := (DrrnRun_Proofs.valE p aes data).

Lemma view0_ok : exists v, view0Of p enc aes prng c serverSet bins inputs = Some v /\ vKeys v = map (map qK0) rows /\
  clientPerm (piOf p rows) (cPi1 c) (maskList (cMask c) P 1) (maskList (cMask c) P 2) = Some (vPi0 v, vPiS0 v) /\
  (forall i b q, ents !! i = Some (b, ent b q) -> placeOf (cPi1 c) (vPi0 v) q = Some i) /\
  vMsg1 v = server1Message (map (fun e => shareOf p aes data e.1 (qK1 e.2)) ents) (maskList (cMask c) P 1).
Proof using All.
  destruct Hch as (HP1 & Ls & Hsg & HO0 & HO1). destruct (domain_facts p aes data D G Hsz HDG Hsort) as (HG & _).
  pose proof (total_fits p enc aes prng c inputs Hsz Hlen Hfit) as TF. pose proof (perm_P p enc aes prng c serverSet bins inputs Hsz Hlen Hfit Hch Htab D G data HDG Hdata Hsort Hin) as PP.
  destruct (sigmaMasks_ok (dH p) (cSigmas c) ltac:(destruct Hsz as (_ & HH & _); lia) Hsg [] (maskList (cMask c) P 0)) as (r' & Er & HB).
  { rewrite Ls, maskList_length, PP. exact TF. }
  cbn [app length] in Er. rewrite Ls in HB. pose proof (blockPerm_length _ _ _ _ HB) as Lr. rewrite maskList_length in Lr.
  pose proof (pi_perm p enc aes prng c inputs Hsz Hlen Hfit D G HDG) as HPi.
  assert (Forall (fun k => (k < P)%nat) (piOf p rows)) as HFp. { apply Forall_forall. intros k Hk. rewrite HPi in Hk. apply elem_of_seq in Hk. lia. }
  destruct (clientPerm_ok P (piOf p rows) (cPi1 c) (maskList (cMask c) P 1) (maskList (cMask c) P 2) HP1 HFp (maskList_length _ _ _)) as (pi0 & piS0 & Ec & Lp & Hp).
  assert (exists rs, maskMessage (cPi1 c) r' (maskList (cMask c) P 2) = Some rs) as (rs & Ers).
  { unfold maskMessage. eexists. apply (mapM_lookup _ _ (fun k => N.lxor (default 0 (r' !! k)) (default 0 (maskList (cMask c) P 2 !! k)))). intros k Hx. rewrite HP1 in Hx. apply elem_of_seq in Hx.
    destruct (lookup_lt_is_Some_2 r' k ltac:(lia)) as [u ->]. destruct (lookup_lt_is_Some_2 (maskList (cMask c) P 2) k ltac:(rewrite maskList_length; lia)) as [w ->]. done. }
  exists (mkView0 (map (map qK0) rows) pi0 piS0 rs (server1Message (map (fun e => shareOf p aes data e.1 (qK1 e.2)) ents) (maskList (cMask c) P 1))).
  split; [|split; [done|split; [done|split; [|done]]]].
  - unfold view0Of. rewrite (clientLayout_ok p enc aes prng c inputs Hsz Hlen Hfit D G HDG) by lia. rewrite Hdata, Ec, Er, Ers.
    rewrite (shares_ok p enc aes prng c serverSet bins inputs Hsz Hlen Hfit Hch Htab D G data HDG Hdata Hsort Hin qK1 _ HO1); [done|].
    intros b e He. by apply (keys_shape p enc aes prng c serverSet bins inputs Hsz Hlen Hfit Hch Htab D G data HDG Hdata Hsort Hin b).
  - intros i b q Hi. cbn [vPi0]. apply (placeOf_ok (piOf p rows)); [rewrite HPi; apply NoDup_seq|done|done|].
    rewrite (ents_pi p enc aes prng c serverSet bins inputs Hsz Hlen Hfit Hch Htab D G data HDG Hdata Hsort Hin). change (map ?f ents) with (f <$> ents).
    rewrite list_lookup_fmap, Hi. cbn. by rewrite Nat2N.id.
Qed.

Lemma query_entry i j x : inputs !! i = Some x -> (j < dH p)%nat -> exists b k, (b < dS p)%nat /\ (i * dH p + j)%nat ∈ bin b /\ ents !! k = Some (b, ent b (i * dH p + j)%nat) /\ (k / dBin p)%nat = b /\ (k < P)%nat /\
  slotQ p enc inputs (i * dH p + j) = itemSlot enc (dSlots p) x j /\ inRegion (dSlots p) (N.of_nat (dS p)) (N.of_nat b) (itemSlot enc (dSlots p) x j).
Proof using All.
  intros Hx Hj. assert (i < dN p)%nat as Hi by (apply lookup_lt_Some in Hx; lia). set (q := (i * dH p + j)%nat).
  assert (q / dH p = i)%nat as Dq by (unfold q; rewrite Nat.add_comm, Nat.div_add by lia; rewrite Nat.div_small; lia).
  assert (q mod dH p = j)%nat as Mq by (unfold q; rewrite Nat.add_comm, Nat.mod_add by lia; by apply Nat.mod_small).
  assert (slotQ p enc inputs q = itemSlot enc (dSlots p) x j) as Es by (unfold slotQ, itemOf; by rewrite Dq, Mq, Hx).
  pose proof (regQ_lt p enc aes prng c inputs Hsz Hlen Hfit q) as Hb. set (b := regQ p enc inputs q) in *.
  assert (q ∈ bin b) as Hm by (unfold binQ; apply elem_of_list_filter; split; [done|apply elem_of_seq; unfold q; nia]).
  pose proof (ents_real p enc aes prng c serverSet bins inputs Hsz Hlen Hfit Hch Htab D G data HDG Hdata Hsort Hin b q Hb Hm) as He. apply elem_of_list_lookup in He as [k Hk].
  exists b, k. split; [done|]. split; [done|]. split; [done|]. split.
  { unfold DrrnRun_Proofs.ents in Hk. by apply (imap_rows_lookup rows (dBin p) k b (ent b q)); [apply (rowsQ_row p enc aes prng c inputs Hsz Hlen Hfit D G HDG)|]. }
  split. { apply lookup_lt_Some in Hk. by rewrite (ents_length p enc aes prng c serverSet bins inputs Hsz Hlen Hfit Hch Htab D G data HDG Hdata Hsort Hin) in Hk. }
  split; [done|]. rewrite <- Es. by apply (regQ_iff p enc aes prng c inputs Hsz Hlen Hfit).
Qed.

Lemma valE_content b q : regionsLead p bins -> (b < dS p)%nat -> q ∈ bin b -> valE (b, ent b q) = slotContent serverSet bins (slotQ p enc inputs q).
Proof using All.
  intros HL Hb Hq. unfold slotContent.
  assert (forall x, (x, slotQ p enc inputs q) ∈ data -> valE (b, ent b q) = x) as Hhit.
  { intros x Hx. apply (valE_hit p enc aes prng c serverSet bins inputs Hsz Hlen Hfit Hch Htab D G data HDG Hdata Hsort Hin b q x Hb Hq Hx).
    apply (lead_first p enc aes prng c serverSet bins inputs Hsz Hlen Hfit Hch Htab D G data HDG Hdata Hsort Hin b HL Hb). intros E.
    assert ((x, slotQ p enc inputs q) ∈ itemsOf p data b) as I; [|rewrite E in I; by apply elem_of_nil in I]. apply (itemsOf_in p aes data D G Hsz HDG Hsort). split; [done|].
    apply (region_slots p Hsz); [done|]. apply (regQ_iff p enc aes prng c inputs Hsz Hlen Hfit). unfold binQ in Hq. by apply elem_of_list_filter in Hq as [? _]. }
  assert ((forall x, (x, slotQ p enc inputs q) ∉ data) -> valE (b, ent b q) = 0) as Hmiss.
  { intros Hno. rewrite (valE_real p enc aes prng c serverSet bins inputs Hsz Hlen Hfit Hch Htab D G data HDG Hdata Hsort Hin) by done.
    destruct (decide (itemsOf p data b = [])) as [E|E]; [by rewrite E|]. pose proof (lead_first p enc aes prng c serverSet bins inputs Hsz Hlen Hfit Hch Htab D G data HDG Hdata Hsort Hin b HL Hb E) as Ef.
    unfold binQ in Hq. apply elem_of_list_filter in Hq as [Hr Hq]. apply (regQ_iff p enc aes prng c inputs Hsz Hlen Hfit) in Hr. apply (region_slots p Hsz) in Hr; [|done].
    apply selectItems_zero. intros e He. pose proof (firstOf_le p aes data D G Hsz HDG Hsort b e He) as F1. apply N.eqb_neq. intros Ee. rewrite Ef in Ee, F1.
    apply (Hno e.1). apply (itemsOf_in p aes data D G Hsz HDG Hsort) in He as [He _]. assert (e.2 = slotQ p enc inputs q) as <- by lia. by destruct e. }
  destruct (bins !! N.to_nat (slotQ p enc inputs q)) as [w|] eqn:Ew.
  - destruct (decide (w = emptyWord)) as [->|Hw].
    + apply Hmiss. intros x Hx. apply Hin in Hx as (c' & w' & Hc' & Hw' & _ & E2). cbn in E2. rewrite E2, Nat2N.id in Ew. congruence.
    + assert (exists x, serverSet !! N.to_nat (wordIdx w) = Some x) as [x Hx].
      { apply lookup_lt_is_Some_2. destruct Htab as (_ & HPerm & _). assert (N.to_nat (wordIdx w) ∈ seq 0 (length serverSet)) as I; [|apply elem_of_seq in I; lia].
        rewrite <- HPerm. apply elem_of_list_fmap. exists w. split; [done|]. apply elem_of_list_filter. split; [done|]. by eapply elem_of_list_lookup_2. }
      rewrite Hx. apply Hhit. apply Hin. exists (N.to_nat (slotQ p enc inputs q)), w. cbn. rewrite N2Nat.id. done.
  - apply Hmiss. intros x Hx. apply Hin in Hx as (c' & w' & Hc' & _ & _ & E2). cbn in E2. rewrite E2, Nat2N.id in Ew. congruence.
Qed.

Lemma learns_ok : exists v, view0Of p enc aes prng c serverSet bins inputs = Some v /\ forall i j x, inputs !! i = Some x -> (j < dH p)%nat ->
  (exists b, learnedRegion p (cPi1 c) v i j = Some b /\ inRegion (dSlots p) (N.of_nat (dS p)) (N.of_nat b) (itemSlot enc (dSlots p) x j)) /\
  (regionsLead p bins -> learnedValue p aes (cMask c) (cPi1 c) serverSet bins v i j = Some (slotContent serverSet bins (itemSlot enc (dSlots p) x j))).
Proof using All.
  destruct view0_ok as (v & Ev & Ek & _ & Hp & Em). exists v. split; [done|]. intros i j x Hx Hj.
  destruct (query_entry i j x Hx Hj) as (b & k & Hb & Hq & Hk & Hkb & Hkp & Es & HR). pose proof (Hp k b _ Hk) as Hpl. split.
  - exists b. split; [|done]. unfold learnedRegion. rewrite Hpl. by rewrite Hkb.
  - intros HL. unfold learnedValue. rewrite Hdata, Ek, Hpl.
    rewrite (shares_ok p enc aes prng c serverSet bins inputs Hsz Hlen Hfit Hch Htab D G data HDG Hdata Hsort Hin qK0 (seq 0 (dS p)) (Permutation_refl _)).
    2:{ intros b' e He. by apply (keys_shape p enc aes prng c serverSet bins inputs Hsz Hlen Hfit Hch Htab D G data HDG Hdata Hsort Hin b'). }
    rewrite Em. unfold server1Message. change (map ?f ents) with (f <$> ents). rewrite lookup_zip_with, !list_lookup_fmap, Hk. cbn [fmap option_fmap option_map].
    rewrite maskList_lookup by done. cbn. f_equal. rewrite <- Es, <- (valE_content b _ HL Hb Hq). unfold DrrnRun_Proofs.valE. cbn [fst snd].
    rewrite Nat.add_0_r. rewrite !N.lxor_assoc, N.lxor_nilpotent, N.lxor_0_r. done.
Qed.
End run.
