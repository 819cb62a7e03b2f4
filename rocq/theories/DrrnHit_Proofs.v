(** What the client of the PIR-PSI protocol learns about the server's table. *)
From stdpp Require Import sets.
From Verif Require Import Base Partition_Model CuckooIndex_Model Bgi_Model Bgi_Spec Bgi_Proofs BgiFull_Proofs Drrn_Model Drrn_Spec Drrn_Proofs DrrnMask_Proofs DrrnClient_Proofs DrrnServer_Proofs DrrnRun_Proofs DrrnTop_Proofs.
From Verif Require Import DrrnView_Spec DrrnView_Proofs DrrnView_Proofs2 DrrnHit_Model DrrnHit_Spec.

(** ** The exchanges *)

Lemma exchange_lt a b k n : (a < n)%nat -> (b < n)%nat -> (k < n)%nat -> (exchange a b k < n)%nat.
Proof. unfold exchange. intros. destruct (decide (k = a)), (decide (k = b)); lia. Qed.
Lemma arrangeFrom_lt n sigma j H : (forall x, x ∈ sigma -> (x < H)%nat) -> (n + length sigma <= H)%nat -> (j < H)%nat -> (arrangeFrom n sigma j < H)%nat.
Proof.
  revert n. induction sigma as [|x l IH]; intros n HX HL Hj; [done|]. cbn [arrangeFrom length] in *. apply exchange_lt; [lia|apply HX; left|]. apply IH; [intros; apply HX; by right|lia|done].
Qed.
Lemma swapPos_lookup l a b : (a < length l)%nat -> (b < length l)%nat -> exists l', swapPos l a b = Some l' /\ length l' = length l /\ forall k, l' !! k = l !! exchange a b k.
Proof.
  intros Ha Hb. destruct (lookup_lt_is_Some_2 l a Ha) as [x Hx], (lookup_lt_is_Some_2 l b Hb) as [y Hy]. unfold swapPos. rewrite Hx, Hy. eexists. split; [done|]. split; [by rewrite !insert_length|].
  intros k. unfold exchange. destruct (decide (k = a)) as [->|E1].
  - destruct (decide (a = b)) as [->|E2]; [rewrite list_lookup_insert by (by rewrite insert_length); congruence|]. rewrite list_lookup_insert_ne by done. by rewrite list_lookup_insert, Hy.
  - destruct (decide (k = b)) as [->|E2]; [rewrite list_lookup_insert by (by rewrite insert_length); done|]. by rewrite !list_lookup_insert_ne.
Qed.
Lemma sigmaLoop_lookup H off sigma : forall n r, (forall x, x ∈ sigma -> (x < H)%nat) -> (n + length sigma <= H)%nat -> (off + H <= length r)%nat ->
  exists r', sigmaLoop off n sigma r = Some r' /\ length r' = length r /\ (forall j, (j < H)%nat -> r' !! (off + j)%nat = r !! (off + arrangeFrom n sigma j)%nat) /\
    forall k, (k < off \/ off + H <= k)%nat -> r' !! k = r !! k.
Proof.
  induction sigma as [|x l IH]; intros n r HX HL Hr; cbn [sigmaLoop arrangeFrom]; [by exists r|]. cbn [length] in HL. assert (x < H)%nat as Hx by (apply HX; left).
  destruct (swapPos_lookup r (off + n) (off + x)) as (r1 & -> & L1 & K1); [lia|lia|].
  destruct (IH (S n) r1) as (r2 & E2 & L2 & K2 & K3); [intros; apply HX; by right|lia|lia|]. exists r2. split; [done|]. split; [lia|]. split.
  - intros j Hj. rewrite (K2 j Hj), K1. f_equal. unfold exchange. repeat case_decide; lia.
  - intros k Hk. rewrite (K3 k Hk), K1. f_equal. unfold exchange. repeat case_decide; lia.
Qed.
Lemma sigmaMasks_lookup H sigmas : (0 < H)%nat -> Forall (fun sg => sg ≡ₚ seq 0 H) sigmas -> forall off r, (off + length sigmas * H <= length r)%nat ->
  exists r', sigmaMasks off sigmas r = Some r' /\ length r' = length r /\
    (forall i sg j, sigmas !! i = Some sg -> (j < H)%nat -> r' !! (off + (i * H + j))%nat = r !! (off + (i * H + arrange sg j))%nat) /\
    forall k, (k < off \/ off + length sigmas * H <= k)%nat -> r' !! k = r !! k.
Proof.
  intros H0 HF. induction HF as [|sg sigmas Hsg HF IH]; intros off r HL; cbn [sigmaMasks].
  - exists r. done.
  - assert (length sg = H) as Ls by (rewrite Hsg; apply seq_length). cbn [length] in HL.
    destruct (sigmaLoop_lookup H off (tail sg) 1 r) as (r1 & -> & L1 & K1 & K1'); [| |lia|].
    { intros x Hx. assert (x ∈ seq 0 H) as I; [|apply elem_of_seq in I; lia]. rewrite <- Hsg. destruct sg; [by apply elem_of_nil in Hx|by right]. }
    { destruct sg as [|y sg]; [cbn in Ls; lia|cbn in *; lia]. }
    rewrite Ls. destruct (IH (off + H)%nat r1) as (r2 & E2 & L2 & K2 & K2'); [lia|]. exists r2. split; [done|]. split; [lia|]. split.
    + intros i sg' j Hi Hj. destruct i as [|i].
      * cbn in Hi. injection Hi as <-. cbn [Nat.mul Nat.add]. rewrite K2' by lia. by apply K1.
      * cbn in Hi. replace (off + (S i * H + j))%nat with (off + H + (i * H + j))%nat by lia. rewrite (K2 i sg' j Hi Hj).
        assert (Forall (fun sg => sg ≡ₚ seq 0 H) sigmas) as HF' by done. rewrite K1' by lia. f_equal. lia.
    + intros k Hk. cbn [length] in Hk. rewrite K2' by lia. apply K1'. lia.
Qed.
Lemma arrange_lt H sg j : sg ≡ₚ seq 0 H -> (j < H)%nat -> (arrange sg j < H)%nat.
Proof.
  intros Hsg Hj. assert (length sg = H) as Ls by (rewrite Hsg; apply seq_length). apply arrangeFrom_lt; [|destruct sg; cbn in *; lia|done].
  intros x Hx. assert (x ∈ seq 0 H) as I; [|apply elem_of_seq in I; lia]. rewrite <- Hsg. destruct sg; [by apply elem_of_nil in Hx|by right].
Qed.

(** ** A run *)

Section run.
Variable (p : dparams) (enc : N -> N) (aes : bool -> N -> N) (prng : N -> N * N) (c : dchoices) (serverSet bins inputs : list N).
Hypothesis Hsz : sizesOk p.
Hypothesis Hlen : length inputs = dN p.
Hypothesis Hfit : queriesFit enc p inputs.
Hypothesis Hch : choicesOk p c.
Hypothesis Htab : tableOk enc p serverSet bins.
Variable (D G : N) (data : list (N * N)).
Hypothesis HDG : domainParams (dSlots p) (N.of_nat (dS p)) 1 = Done (D, G).
Hypothesis Hdata : tableOf bins serverSet = Some data.
Hypothesis Hsort : sortedTable data.
Hypothesis Hin : forall e, e ∈ data <-> exists c w, bins !! c = Some w /\ w ≠ emptyWord /\ serverSet !! N.to_nat (wordIdx w) = Some e.1 /\ e.2 = N.of_nat c.

Local Notation rows := (rowsQ p enc aes prng c inputs D G).
Local Notation ent := (entQ p enc aes prng c inputs D G).
Local Notation bin := (binQ p enc inputs).
Local Notation P := (permSize p).
Local Notation ents := (DrrnRun_Proofs.ents p enc aes prng c inputs D G).
Local Notation valE := (DrrnRun_Proofs.valE p aes data).
Local Notation "'call' f" := (f p enc aes prng c serverSet bins inputs Hsz Hlen Hfit Hch Htab D G data HDG Hdata Hsort Hin) (at level 10, f at level 9, only parsing).

Lemma hits_values : exists (final : list N) (r' : list N), drrnHits p enc aes prng c serverSet bins inputs = Some (hitList final rows) /\
  drrn p enc aes prng c serverSet bins inputs = Some (remove_dups (map fst (filter (fun e : nat * N => e.2 ∈ final) (omap qReal (concat rows))))) /\
  length r' = P /\
  (forall i sg j, cSigmas c !! i = Some sg -> (j < dH p)%nat -> r' !! (i * dH p + j)%nat = Some (cMask c (N.of_nat (i * dH p + arrange sg j)))) /\
  (forall k, (dN p * dH p <= k < P)%nat -> r' !! k = Some (cMask c (N.of_nat k))) /\
  forall v, v ∈ final <-> exists b e m, (b, e) ∈ ents /\ r' !! N.to_nat (qPi e) = Some m /\ v = N.lxor (valE (b, e)) m.
Proof using All.
  destruct Hch as (HP1 & Ls & Hsg & HO0 & HO1). destruct (domain_facts p aes data D G Hsz HDG Hsort) as (HG & _).
  pose proof (total_fits p enc aes prng c inputs Hsz Hlen Hfit) as TF. pose proof (call perm_P) as PP. assert (0 < dH p)%nat as HH by (destruct Hsz as (_ & HH & _); lia).
  destruct (sigmaMasks_lookup (dH p) (cSigmas c) HH Hsg 0 (maskList (cMask c) P 0)) as (r' & Er & Lr & K1 & K2).
  { rewrite Ls, maskList_length, PP. exact TF. }
  rewrite maskList_length in Lr. rewrite Ls in K2.
  pose proof (pi_perm p enc aes prng c inputs Hsz Hlen Hfit D G HDG) as HPi.
  set (sh0 := map (fun e => shareOf p aes data e.1 (qK0 e.2)) ents). set (sh1 := map (fun e => shareOf p aes data e.1 (qK1 e.2)) ents).
  destruct (final_ok P (piOf p rows) (cPi1 c) (maskList (cMask c) P 1) (maskList (cMask c) P 2) r' sh0 sh1) as (pi0 & piS0 & rs & final & E1 & E2 & E3 & Lf & K).
  - exact HP1.
  - apply Forall_forall. intros k Hk. rewrite HPi in Hk. apply elem_of_seq in Hk. lia.
  - rewrite HPi. apply seq_length.
  - apply maskList_length.
  - apply maskList_length.
  - done.
  - subst sh0. rewrite map_length. apply (call ents_length).
  - subst sh1. rewrite map_length. apply (call ents_length).
  - assert (serverShares p aes (map (map qK0) rows) data (cOrder0 c) = Some sh0 /\ serverShares p aes (map (map qK1) rows) data (cOrder1 c) = Some sh1) as [S0 S1].
    { rewrite (call shares_ok qK0 _ HO0), (call shares_ok qK1 _ HO1); [done| |]; intros b e He; by apply (call keys_shape b). }
    exists final, r'. split; [|split; [|split; [done|split; [|split]]]].
    + unfold drrnHits. rewrite (clientLayout_ok p enc aes prng c inputs Hsz Hlen Hfit D G HDG) by lia. by rewrite Hdata, E1, Er, E2, S0, S1, E3.
    + unfold drrn. rewrite (clientLayout_ok p enc aes prng c inputs Hsz Hlen Hfit D G HDG) by lia. by rewrite Hdata, E1, Er, E2, S0, S1, E3.
    + intros i sg j Hi Hj. pose proof (K1 i sg j Hi Hj) as Q. cbn [Nat.add] in Q. rewrite Q. pose proof (lookup_lt_Some _ _ _ Hi) as Li. rewrite Ls in Li.
      rewrite Forall_forall in Hsg. pose proof (arrange_lt (dH p) sg j (Hsg sg (elem_of_list_lookup_2 _ _ _ Hi)) Hj) as La. rewrite maskList_lookup by nia. done.
    + intros k Hk. rewrite K2 by lia. rewrite maskList_lookup by lia. done.
    + assert (forall i b e, ents !! i = Some (b, e) -> exists m, r' !! N.to_nat (qPi e) = Some m /\ final !! i = Some (N.lxor (valE (b, e)) m)) as Hpt.
      { intros i b e Hi. assert (piOf p rows !! i = Some (N.to_nat (qPi e))) as Hpi.
        { rewrite (call ents_pi). change (map ?f ents) with (f <$> ents). rewrite list_lookup_fmap, Hi. done. }
        assert (N.to_nat (qPi e) < P)%nat as Lq. { assert (N.to_nat (qPi e) ∈ seq 0 P) as I by (rewrite <- HPi; by eapply elem_of_list_lookup_2). apply elem_of_seq in I. lia. }
        destruct (lookup_lt_is_Some_2 r' (N.to_nat (qPi e)) ltac:(lia)) as [m Hm]. exists m. split; [done|].
        rewrite (K i (shareOf p aes data b (qK0 e)) (shareOf p aes data b (qK1 e)) (N.to_nat (qPi e)) m); [done| | |done|done].
        - subst sh0. change (map ?f ents) with (f <$> ents). rewrite list_lookup_fmap, Hi. done.
        - subst sh1. change (map ?f ents) with (f <$> ents). rewrite list_lookup_fmap, Hi. done. }
      intros v. split.
      * intros Hv. apply elem_of_list_lookup in Hv as [i Hi]. destruct (lookup_lt_is_Some_2 ents i) as [[b e] He]; [rewrite (call ents_length), <- Lf; by eapply lookup_lt_Some|].
        destruct (Hpt i b e He) as (m & Hm & Hf). rewrite Hi in Hf. injection Hf as ->. exists b, e, m. split; [by eapply elem_of_list_lookup_2|]. done.
      * intros (b & e & m & He & Hm & ->). apply elem_of_list_lookup in He as [i Hi]. destruct (Hpt i b e Hi) as (m' & Hm' & Hf). rewrite Hm in Hm'. injection Hm' as <-.
        by eapply elem_of_list_lookup_2.
Qed.

Lemma hit_value final q : q ∈ hitList final rows <-> (q < dN p * dH p)%nat /\ N.lxor (cMask c (N.of_nat q)) (itemOf p inputs q) ∈ final.
Proof using All.
  unfold hitList. rewrite elem_of_list_omap. split.
  - intros (e & He & Hr). rewrite <- (concat_imap_snd rows) in He. apply elem_of_list_fmap in He as ([b e'] & -> & He). apply (call ents_cases) in He as (_ & [(q0 & Hq & E)|(d & E)]); cbn [snd] in Hr; rewrite E in Hr.
    + cbn in Hr. destruct (decide _) as [Hd|]; [|done]. injection Hr as <-. rewrite Nat2N.id. split; [|done]. unfold binQ in Hq. apply elem_of_list_filter in Hq as [_ Hq]. apply elem_of_seq in Hq. lia.
    + done.
  - intros [Hq Hf]. pose proof (regQ_lt p enc aes prng c inputs Hsz Hlen Hfit q) as Hb. assert (q ∈ bin (regQ p enc inputs q)) as Hm.
    { unfold binQ. apply elem_of_list_filter. split; [done|]. apply elem_of_seq. lia. }
    exists (ent (regQ p enc inputs q) q). split.
    + rewrite <- (concat_imap_snd rows). apply elem_of_list_fmap. eexists (_, _). split; [|by apply (call ents_real)]. done.
    + cbn. rewrite decide_True by done. by rewrite Nat2N.id.
Qed.

Lemma hits_iff : masksFresh p (cMask c) serverSet inputs -> regionsLead p bins ->
  exists hits, drrnHits p enc aes prng c serverSet bins inputs = Some hits /\ (forall q, q ∈ hits -> (q < dN p * dH p)%nat) /\
    forall i j' x, inputs !! i = Some x -> (j' < dH p)%nat ->
      (i * dH p + j')%nat ∈ hits <-> exists sg j, cSigmas c !! i = Some sg /\ (j < dH p)%nat /\ arrange sg j = j' /\ slotContent serverSet bins (itemSlot enc (dSlots p) x j) = x.
Proof using All.
  intros HM HL. destruct hits_values as (final & r' & Eh & _ & Lr & K1 & K2 & HV). exists (hitList final rows). split; [done|]. split; [intros q Hq; by apply hit_value in Hq as [? _]|].
  destruct Hch as (HP1 & Ls & Hsg & HO0 & HO1). pose proof (total_fits p enc aes prng c inputs Hsz Hlen Hfit) as TF. rewrite <- (call perm_P) in TF.
  assert (0 < dH p)%nat as HH by (destruct Hsz as (_ & HH & _); lia). rewrite Forall_forall in Hsg.
  assert (forall i j, (j < dH p)%nat -> ((i * dH p + j) / dH p = i)%nat /\ ((i * dH p + j) mod dH p = j)%nat) as Hdm.
  { intros i j Hj. split; [rewrite Nat.add_comm, Nat.div_add by lia; rewrite Nat.div_small; lia|rewrite Nat.add_comm, Nat.mod_add by lia; by apply Nat.mod_small]. }
  intros i j' x Hx Hj'. assert (i < dN p)%nat as Hi by (apply lookup_lt_Some in Hx; lia).
  destruct (lookup_lt_is_Some_2 (cSigmas c) i ltac:(lia)) as [sg Hs]. pose proof (Hsg sg (elem_of_list_lookup_2 _ _ _ Hs)) as Ps.
  assert (forall j, (j < dH p)%nat -> itemOf p inputs (i * dH p + j) = x /\ slotQ p enc inputs (i * dH p + j) = itemSlot enc (dSlots p) x j /\ (i * dH p + j < dN p * dH p)%nat) as Hq.
  { intros j Hj. destruct (Hdm i j Hj) as [E1 E2]. assert (itemOf p inputs (i * dH p + j) = x) as Ei by (unfold itemOf; by rewrite E1, Hx). split; [done|]. split; [|nia]. unfold slotQ. by rewrite Ei, E2. }
  rewrite hit_value. destruct (Hq j' Hj') as (-> & _ & Hlt). split.
  - intros [_ Hf]. apply HV in Hf as (b & en & m & He & Hm & Es). pose proof (call valE_in b en He) as Hv.
    pose proof (call ents_cases b en He) as (Hb & [(q & Hqb & ->)|(d & ->)]).
    + assert (q < dN p * dH p)%nat as Lq by (unfold binQ in Hqb; apply elem_of_list_filter in Hqb as [_ I]; apply elem_of_seq in I; lia).
      cbn [entQ qPi] in Hm. rewrite Nat2N.id in Hm.
      assert (q / dH p < dN p)%nat as Hd by (apply Nat.div_lt_upper_bound; lia). assert (q mod dH p < dH p)%nat as Hmd by (apply Nat.mod_upper_bound; lia).
      assert (q = q / dH p * dH p + q mod dH p)%nat as Eq by (pose proof (Nat.div_mod q (dH p) ltac:(lia)); lia).
      destruct (lookup_lt_is_Some_2 (cSigmas c) (q / dH p)%nat ltac:(lia)) as [sg2 Hs2]. pose proof (K1 _ sg2 (q mod dH p)%nat Hs2 Hmd) as Q. rewrite <- Eq, Hm in Q. injection Q as ->.
      pose proof (arrange_lt (dH p) sg2 _ (Hsg sg2 (elem_of_list_lookup_2 _ _ _ Hs2)) Hmd) as La.
      assert (N.of_nat (q / dH p * dH p + arrange sg2 (q mod dH p)) = N.of_nat (i * dH p + j')) as EK.
      { apply (HM _ _ (valE (b, ent b q)) x); [nia|lia|done|by eapply elem_of_list_lookup_2|]. by rewrite Es. }
      apply Nat2N.inj in EK. assert (q / dH p = i /\ arrange sg2 (q mod dH p) = j')%nat as [Ei Ej].
      { destruct (Hdm (q / dH p)%nat _ La) as [A1 A2], (Hdm i j' Hj') as [B1 B2]. rewrite EK in A1, A2. rewrite B1 in A1. rewrite B2 in A2. done. }
      exists sg2, (q mod dH p)%nat. split; [by rewrite <- Ei|]. split; [done|]. split; [done|].
      rewrite Ei, Ej in Es. rewrite (N.lxor_comm (cMask c _)) in Es. apply (f_equal (fun z => N.lxor z (cMask c (N.of_nat (i * dH p + j'))))) in Es.
      rewrite !N.lxor_assoc, N.lxor_nilpotent, !N.lxor_0_r in Es. rewrite (valE_content p enc aes prng c serverSet bins inputs Hsz Hlen Hfit Hch Htab D G data HDG Hdata Hsort Hin b q HL Hb Hqb) in Es.
      destruct (Hq (q mod dH p)%nat Hmd) as (_ & Esl & _). rewrite <- Esl. replace (i * dH p + q mod dH p)%nat with q by (rewrite <- Ei; exact Eq). done.
    + exfalso. pose proof (lookup_lt_Some _ _ _ Hm) as Lm. rewrite Lr in Lm.
      assert (dN p * dH p <= N.to_nat (qPi (dummyEntry (N.to_nat D) (N.to_nat G) d)))%nat as Ld.
      { destruct (decide (dN p * dH p <= N.to_nat (qPi (dummyEntry (N.to_nat D) (N.to_nat G) d)))%nat) as [|Hn]; [done|]. exfalso. set (q := N.to_nat (qPi (dummyEntry (N.to_nat D) (N.to_nat G) d))) in *.
        pose proof (regQ_lt p enc aes prng c inputs Hsz Hlen Hfit q) as Hb2. assert (q ∈ bin (regQ p enc inputs q)) as Hqb by (unfold binQ; apply elem_of_list_filter; split; [done|apply elem_of_seq; lia]).
        pose proof (call ents_real (regQ p enc inputs q) q Hb2 Hqb) as He2. apply elem_of_list_lookup in He as [k1 Hk1]. apply elem_of_list_lookup in He2 as [k2 Hk2].
        assert (NoDup (piOf p rows)) as ND by (rewrite (pi_perm p enc aes prng c inputs Hsz Hlen Hfit D G HDG); apply NoDup_seq).
        rewrite (call ents_pi) in ND. assert (k1 = k2) as ->.
        { apply (NoDup_lookup _ k1 k2 q ND); change (map ?f ents) with (f <$> ents); rewrite list_lookup_fmap; [by rewrite Hk1|rewrite Hk2; cbn; by rewrite Nat2N.id]. }
        rewrite Hk1 in Hk2. apply (f_equal (fun o : option (nat * qentry) => match o with Some x => qReal x.2 | None => None end)) in Hk2. discriminate Hk2. }
      rewrite (K2 _ (conj Ld Lm)) in Hm. injection Hm as <-.
      assert (N.of_nat (N.to_nat (qPi (dummyEntry (N.to_nat D) (N.to_nat G) d))) = N.of_nat (i * dH p + j')) as EK.
      { apply (HM _ _ (valE (b, dummyEntry (N.to_nat D) (N.to_nat G) d)) x); [lia|lia|done|by eapply elem_of_list_lookup_2|]. by rewrite Es. }
      lia.
  - intros (sg2 & j & Hs2 & Hj & Ej & Ec). rewrite Hs in Hs2. injection Hs2 as <-. split; [done|]. apply HV. destruct (Hq j Hj) as (_ & Esl & Lq).
    pose proof (regQ_lt p enc aes prng c inputs Hsz Hlen Hfit (i * dH p + j)%nat) as Hb. set (b := regQ p enc inputs (i * dH p + j)) in *.
    assert ((i * dH p + j)%nat ∈ bin b) as Hm by (unfold binQ; apply elem_of_list_filter; split; [done|apply elem_of_seq; lia]).
    exists b, (ent b (i * dH p + j)%nat), (cMask c (N.of_nat (i * dH p + j'))). split; [by apply (call ents_real)|]. split.
    + cbn [entQ qPi]. rewrite Nat2N.id, (K1 i sg j Hs Hj). by rewrite Ej.
    + rewrite (valE_content p enc aes prng c serverSet bins inputs Hsz Hlen Hfit Hch Htab D G data HDG Hdata Hsort Hin b _ HL Hb Hm), Esl, Ec. apply N.lxor_comm.
Qed.
End run.

Local Ltac setup Hsz Htab D G data HDG Hd Hs Hi :=
  destruct (domain_exists _ Hsz) as (D & G & HDG & _ & _);
  match type of Htab with tableOk ?enc ?p ?S ?B =>
    assert (dSlots p < 2 ^ 32) as W by (destruct Hsz as (_ & _ & _ & _ & HSl & _); change (2 ^ 32) with (2 * 2 ^ 31); lia);
    destruct (tableOf_ok enc p S B Htab W) as (data & Hd & Hs & Hi) end.

Lemma hits_ok p enc aes prng c serverSet bins inputs : sizesOk p -> length inputs = dN p -> queriesFit enc p inputs -> choicesOk p c -> tableOk enc p serverSet bins ->
  masksFresh p (cMask c) serverSet inputs -> regionsLead p bins ->
  exists hits, drrnHits p enc aes prng c serverSet bins inputs = Some hits /\ (forall q, q ∈ hits -> (q < dN p * dH p)%nat) /\
    forall i j' x, inputs !! i = Some x -> (j' < dH p)%nat ->
      (i * dH p + j')%nat ∈ hits <-> exists sg j, cSigmas c !! i = Some sg /\ (j < dH p)%nat /\ arrange sg j = j' /\ slotContent serverSet bins (itemSlot enc (dSlots p) x j) = x.
Proof.
  intros Hsz Hlen Hfit Hch Htab. setup Hsz Htab D G data HDG Hd Hs Hi.
  exact (hits_iff p enc aes prng c serverSet bins inputs Hsz Hlen Hfit Hch Htab D G data HDG Hd Hs Hi).
Qed.

Lemma hits_out p enc aes prng c serverSet bins inputs : sizesOk p -> length inputs = dN p -> queriesFit enc p inputs -> choicesOk p c -> tableOk enc p serverSet bins ->
  exists hits out, drrnHits p enc aes prng c serverSet bins inputs = Some hits /\ drrn p enc aes prng c serverSet bins inputs = Some out /\
    forall i, i ∈ out <-> exists q, q ∈ hits /\ (q / dH p)%nat = i.
Proof.
  intros Hsz Hlen Hfit Hch Htab. setup Hsz Htab D G data HDG Hd Hs Hi.
  destruct (hits_values p enc aes prng c serverSet bins inputs Hsz Hlen Hfit Hch Htab D G data HDG Hd Hs Hi) as (final & r' & Eh & Eo & _). eexists _, _. split; [exact Eh|]. split; [exact Eo|].
  intros i. rewrite elem_of_remove_dups. rewrite elem_of_list_fmap. split.
  - intros ([i' s] & -> & Hr). apply elem_of_list_filter in Hr as [Hf Hr]. apply (reals_iff p enc aes prng c serverSet bins inputs Hsz Hlen Hfit Hch Htab D G data HDG Hd Hs Hi) in Hr as (q & Hq & -> & ->).
    exists q. split; [|done]. by apply (hit_value p enc aes prng c serverSet bins inputs Hsz Hlen Hfit Hch Htab D G data HDG Hd Hs Hi).
  - intros (q & Hq & <-). apply (hit_value p enc aes prng c serverSet bins inputs Hsz Hlen Hfit Hch Htab D G data HDG Hd Hs Hi) in Hq as [Hq Hf].
    exists ((q / dH p)%nat, N.lxor (cMask c (N.of_nat q)) (itemOf p inputs q)). split; [done|]. apply elem_of_list_filter. split; [done|].
    apply (reals_iff p enc aes prng c serverSet bins inputs Hsz Hlen Hfit Hch Htab D G data HDG Hd Hs Hi). exists q. done.
Qed.

(** ** Three hash functions *)

Lemma three_places sg j : sg ≡ₚ [0; 1; 2]%nat -> (j < 3)%nat -> arrange sg j = 1%nat -> j <> 2%nat.
Proof.
  intros HP Hj E ->. assert (length sg = 3%nat) as L by (by rewrite HP). assert (NoDup sg) as ND by (rewrite HP; apply (bool_decide_eq_true_1 _); done).
  assert (forall x, x ∈ sg -> (x < 3)%nat) as HB. { intros x Hx. rewrite HP in Hx. repeat (apply elem_of_cons in Hx as [->|Hx]; [lia|]). by apply elem_of_nil in Hx. }
  destruct sg as [|a [|b [|d [|]]]]; try done. assert (b < 3)%nat by (apply HB; set_solver). assert (d < 3)%nat by (apply HB; set_solver).
  assert (b <> d) by (apply NoDup_cons in ND as [_ ND]; apply NoDup_cons in ND as [ND _]; intros ->; apply ND; left).
  destruct b as [|[|[|b]]]; [| | |lia]; destruct d as [|[|[|d]]]; try lia; by vm_compute in E.
Qed.

(** ** Two hash functions *)

Lemma filter_map_unique {A B} (Q : A -> Prop) `{!forall x, Decision (Q x)} (f : A -> B) (l : list A) i j x y : NoDup (map f (filter Q l)) -> l !! i = Some x -> l !! j = Some y -> Q x -> Q y -> f x = f y -> i = j.
Proof.
  revert i j. induction l as [|a l IH]; intros i j ND Hi Hj Qx Qy E; [done|]. rewrite filter_cons in ND.
  assert (forall z k, l !! k = Some z -> Q z -> f z ∈ map f (filter Q l)) as HI. { intros z k Hz Qz. apply elem_of_list_fmap. exists z. split; [done|]. apply elem_of_list_filter. split; [done|]. by eapply elem_of_list_lookup_2. }
  destruct i as [|i], j as [|j]; cbn in Hi, Hj.
  - done.
  - injection Hi as ->. rewrite decide_True in ND by done. cbn in ND. apply NoDup_cons in ND as [ND _]. exfalso. apply ND. rewrite E. by apply (HI y j).
  - injection Hj as ->. rewrite decide_True in ND by done. cbn in ND. apply NoDup_cons in ND as [ND _]. exfalso. apply ND. rewrite <- E. by apply (HI x i).
  - f_equal. apply (IH i j); try done. destruct (decide (Q a)); [|done]. cbn in ND. by apply NoDup_cons in ND as [_ ND].
Qed.


Lemma two_cases (sg : list nat) : sg ≡ₚ seq 0 2 -> sg = [0; 1]%nat \/ sg = [1; 0]%nat.
Proof. intros HP. symmetry in HP. cbn in HP. apply Permutation_length_2_inv in HP. tauto. Qed.

(** Where the item at [i] is stored: under which of its hash functions. *)
Definition storedAt (enc : N -> N) (p : dparams) (serverSet bins : list N) (x : N) (j : nat) : bool := bool_decide (slotContent serverSet bins (itemSlot enc (dSlots p) x j) = x).

(** In two tables of the same set, an item is stored under the same hash functions, or under those exchanged. *)
Lemma stored_cases enc p serverSet bins bins' x : dH p = 2%nat -> NoDup serverSet -> tableOk enc p serverSet bins -> tableOk enc p serverSet bins' -> x <> 0 ->
  (forall j, (j < 2)%nat -> storedAt enc p serverSet bins' x j = storedAt enc p serverSet bins x j) \/
  (forall j, (j < 2)%nat -> storedAt enc p serverSet bins' x j = storedAt enc p serverSet bins x (1 - j)%nat).
Proof.
  intros HH ND Ht Ht' H0.
  assert (forall bins, tableOk enc p serverSet bins ->
    ((forall j, storedAt enc p serverSet bins x j = false) /\ x ∉ serverSet) \/
    (x ∈ serverSet /\ exists j0, (j0 < 2)%nat /\ forall j, storedAt enc p serverSet bins x j = bool_decide (itemSlot enc (dSlots p) x j = itemSlot enc (dSlots p) x j0))) as HC.
  { clear bins bins' Ht Ht'. intros bins Ht. destruct (decide (x ∈ serverSet)) as [Hx|Hx]; [right|left].
    - split; [done|]. destruct (content_common enc p serverSet bins x Ht Hx) as (j0 & Hj0 & E0). exists j0. split; [lia|]. intros j. unfold storedAt. apply bool_decide_ext. split; [|intros ->; exact E0].
      intros E. unfold slotContent in E, E0. destruct (bins !! N.to_nat (itemSlot enc (dSlots p) x j)) as [w|] eqn:Ew; [|congruence]. destruct (decide (w = emptyWord)); [congruence|].
      destruct (bins !! N.to_nat (itemSlot enc (dSlots p) x j0)) as [w0|] eqn:Ew0; [|congruence]. destruct (decide (w0 = emptyWord)); [congruence|].
      destruct (serverSet !! N.to_nat (wordIdx w)) as [y|] eqn:Ey; cbn in E; [|congruence]. destruct (serverSet !! N.to_nat (wordIdx w0)) as [y0|] eqn:Ey0; cbn in E0; [|congruence]. unfold id in *. subst y y0.
      pose proof (NoDup_lookup serverSet _ _ x ND Ey Ey0) as Ei. destruct Ht as (_ & HP & _).
      assert (NoDup (map (fun w => N.to_nat (wordIdx w)) (filter (fun w => w ≠ emptyWord) bins))) as ND2 by (rewrite HP; apply NoDup_seq).
      apply N2Nat.inj. by apply (filter_map_unique _ _ bins _ _ w w0 ND2).
    - split; [|done]. intros j. unfold storedAt. apply bool_decide_eq_false. intros E. apply Hx. unfold slotContent in E. destruct (bins !! _) as [w|]; [|congruence]. destruct (decide _); [congruence|].
      destruct (serverSet !! _) as [y|] eqn:Ey; cbn in E; [|congruence]. unfold id in E. subst y. by eapply elem_of_list_lookup_2. }
  destruct (HC bins Ht) as [[A Ax]|[Ax (j0 & Hj0 & A)]], (HC bins' Ht') as [[B Bx]|[Bx (j1 & Hj1 & B)]]; try done.
  - left. intros j _. by rewrite A, B.
  - destruct (decide (j0 = j1)) as [->|Hne]; [left; intros j _; by rewrite A, B|right]. intros j Hj. rewrite A, B. apply bool_decide_ext.
    destruct j as [|[|]]; [| |lia]; destruct j0 as [|[|]]; try lia; destruct j1 as [|[|]]; try lia; cbn; tauto || (split; intros; congruence) || done.
Qed.
