(** What the servers of the PIR-PSI protocol do not learn. *)
From Verif Require Import Base Partition_Model CuckooIndex_Model Bgi_Model Bgi_Spec Bgi_Proofs BgiFull_Proofs Drrn_Model Drrn_Spec Drrn_Proofs DrrnMask_Proofs DrrnClient_Proofs DrrnServer_Proofs DrrnRun_Proofs DrrnTop_Proofs.
From Verif Require Import DrrnView_Model BgiPrivacy_Spec BgiPrivacy_Proofs Order_Spec Order_Proofs DrrnView_Spec DrrnView_Proofs DrrnView_Proofs2.

Lemma moveTape_permutes aes depth gs idx idx' s : (forall c x, x < 2 ^ 128 -> aes c x < 2 ^ 128) -> N.of_nat gs < 2 ^ 64 -> permutesTapes depth gs (moveTape aes gs idx idx' s).
Proof.
  intros Ha Hgs. exists (moveTape aes gs idx' idx s). intros t Ht. split; [by apply moveTape_legal|]. split; [by apply moveTape_legal|]. split; apply moveTape_back.
Qed.

(** The keys of [inputs'] are those of [inputs] when the queries are matched region by region. *)
Lemma keys_matched p enc aes depth gs inputs inputs' (h : nat -> nat) : (forall c x, x < 2 ^ 128 -> aes c x < 2 ^ 128) -> N.of_nat gs < 2 ^ 64 ->
  map (map h) (map (queriesTo enc p inputs') (seq 0 (dS p))) = map (queriesTo enc p inputs) (seq 0 (dS p)) ->
  forall root, exists f, (forall q, permutesTapes depth gs (f q)) /\
    forall tapes, keysView aes enc p depth gs inputs' (fun q => root (h q)) (fun q => f q (tapes (h q))) = keysView aes enc p depth gs inputs root tapes.
Proof.
  intros Ha Hgs Hm root.
  assert (forall b, (b < dS p)%nat -> queriesTo enc p inputs b = map h (queriesTo enc p inputs' b)) as Hb.
  { intros b Hb. apply (f_equal (fun l => l !! b)) in Hm. rewrite map_map in Hm. change (map ?f (seq 0 (dS p))) with (f <$> seq 0 (dS p)) in Hm. rewrite !list_lookup_fmap, lookup_seq_lt in Hm by done.
    cbn in Hm. by injection Hm. }
  set (reg := fun q => regionOf (dSlots p) (N.of_nat (dS p)) (querySlot enc p inputs' q)).
  set (off := fun ins q b => querySlot enc p ins q - firstSlot (dSlots p) (N.of_nat (dS p)) b).
  (* the position of the query of [inputs'] in its region *)
  set (bOf := fun q => default 0%nat (fst <$> list_find (fun b => q ∈ queriesTo enc p inputs' b) (seq 0 (dS p)))).
  assert (forall b q, (b < dS p)%nat -> q ∈ queriesTo enc p inputs' b -> bOf q = b) as HbOf.
  { intros b q Hlt Hq. unfold bOf. assert (list_find (fun b => q ∈ queriesTo enc p inputs' b) (seq 0 (dS p)) = Some (b, b)) as ->; [|done]. apply list_find_Some.
    rewrite lookup_seq_lt by done. split; [done|]. split; [done|]. intros j y Hy Hj Hq'. apply lookup_seq in Hy as [-> _]. cbn in Hq'.
    unfold queriesTo in Hq, Hq'. apply elem_of_list_filter in Hq as [H1 _], Hq' as [H2 _]. pose proof (inRegion_unique _ _ _ _ _ H1 H2). lia. }
  exists (fun q => moveTape aes gs (off inputs (h q) (N.of_nat (bOf q))) (off inputs' q (N.of_nat (bOf q))) (root (h q))). split; [intros q; by apply moveTape_permutes|].
  intros tapes. unfold keysView. apply map_ext_in. intros b Hin%in_seq. rewrite (Hb b ltac:(lia)), map_length, map_map. f_equal. apply map_ext_in. intros q Hq%elem_of_list_In.
  rewrite (HbOf b q ltac:(lia) Hq). apply moveTape_key.
Qed.

Lemma filter_ext_in {A} (Q Q' : A -> Prop) `{!forall x, Decision (Q x), !forall x, Decision (Q' x)} (l : list A) : (forall x, x ∈ l -> Q x <-> Q' x) -> filter Q l = filter Q' l.
Proof.
  induction l as [|x l IH]; [done|]. intros HQ. rewrite !filter_cons, IH by (intros; apply HQ; by right). pose proof (HQ x ltac:(by left)). destruct (decide (Q x)), (decide (Q' x)); tauto.
Qed.

Section two.
Variable (p : dparams) (enc : N -> N) (aes : bool -> N -> N) (prng : N -> N * N) (c : dchoices) (inputs inputs' : list N).
Hypothesis Hsz : sizesOk p.
Hypothesis Hlen : length inputs = dN p.
Hypothesis Hlen' : length inputs' = dN p.
Hypothesis Hfit : queriesFit enc p inputs.
Hypothesis Hfit' : queriesFit enc p inputs'.
Hypothesis Haes : forall b x, x < 2 ^ 128 -> aes b x < 2 ^ 128.

Lemma hidden_loads depth gs : N.of_nat gs < 2 ^ 64 -> (forall b, (b < dS p)%nat -> load enc p inputs' b = load enc p inputs b) ->
  exists h, relabels (dN p * dH p) h /\ forall root, exists f, (forall q, permutesTapes depth gs (f q)) /\
    forall tapes, keysView aes enc p depth gs inputs' (fun q => root (h q)) (fun q => f q (tapes (h q))) = keysView aes enc p depth gs inputs root tapes.
Proof using All.
  intros Hgs HL. destruct (match_blocks (dN p * dH p) (map (queriesTo enc p inputs) (seq 0 (dS p))) (map (queriesTo enc p inputs') (seq 0 (dS p)))) as (h & Hh & Hm).
  - by apply (queries_perm p enc aes prng c).
  - by apply (queries_perm p enc aes prng c).
  - apply Forall2_fmap_2, Forall_Forall2_diag, Forall_forall. intros b Hb. apply elem_of_seq in Hb.
    rewrite <- !(load_length p enc aes prng c) by done. symmetry. apply HL. lia.
  - exists h. split; [done|]. by apply keys_matched.
Qed.

Lemma same_queries : (forall q b, (q < dN p * dH p)%nat -> inRegion (dSlots p) (N.of_nat (dS p)) b (querySlot enc p inputs q) -> inRegion (dSlots p) (N.of_nat (dS p)) b (querySlot enc p inputs' q)) ->
  forall b, queriesTo enc p inputs' b = queriesTo enc p inputs b.
Proof using Hsz Hlen Hlen' Hfit aes prng c.
  intros HR b. unfold queriesTo. apply filter_ext_in. intros q Hq. apply elem_of_seq in Hq.
  split; [|apply HR; lia]. intros H'. pose proof (regQ_lt p enc aes prng c inputs Hsz Hlen Hfit q) as Hlt. set (b0 := regQ p enc inputs q) in *.
  assert (inRegion (dSlots p) (N.of_nat (dS p)) (N.of_nat b0) (querySlot enc p inputs q)) as I by (apply (regQ_iff p enc aes prng c inputs Hsz Hlen Hfit); done).
  pose proof (HR q _ ltac:(lia) I) as I'. pose proof (inRegion_unique _ _ _ _ _ H' I') as E. by rewrite <- E.
Qed.

Lemma hidden_regions depth gs : N.of_nat gs < 2 ^ 64 -> (forall q b, (q < dN p * dH p)%nat -> inRegion (dSlots p) (N.of_nat (dS p)) b (querySlot enc p inputs q) -> inRegion (dSlots p) (N.of_nat (dS p)) b (querySlot enc p inputs' q)) ->
  forall root, exists f, (forall q, permutesTapes depth gs (f q)) /\
    forall tapes, keysView aes enc p depth gs inputs' root (fun q => f q (tapes q)) = keysView aes enc p depth gs inputs root tapes.
Proof using All.
  intros Hgs HR root. apply (keys_matched p enc aes depth gs inputs inputs' (fun q => q)); [done|done|]. rewrite map_map. apply map_ext. intros b. by rewrite map_id, same_queries.
Qed.
End two.

(** ** The rest of the view of server 0 is determined by its keys *)

Lemma rowsOf_related p depth gs (e e' : nat -> nat -> qentry) (R : nat -> qentry -> qentry -> Prop) bins : forall k d,
  (forall j bin q, bins !! j = Some bin -> q ∈ bin -> R (k + j)%nat (e (k + j)%nat q) (e' (k + j)%nat q)) -> (forall b d, R b (dummyEntry depth gs d) (dummyEntry depth gs d)) ->
  forall j r r', rowsOf p depth gs e k bins d !! j = Some r -> rowsOf p depth gs e' k bins d !! j = Some r' -> Forall2 (R (k + j)%nat) r r'.
Proof.
  induction bins as [|bin bins IH]; intros k d HE HD j r r' Hr Hr'; [done|]. cbn [rowsOf] in Hr, Hr'. destruct j as [|j].
  - cbn in Hr, Hr'. injection Hr as <-. injection Hr' as <-. apply Forall2_app.
    + apply Forall2_fmap_2, Forall_Forall2_diag, Forall_forall. intros q Hq. pose proof (HE 0%nat bin q eq_refl Hq) as K. by rewrite !Nat.add_0_r in K |- *.
    + apply Forall2_fmap_2, Forall_Forall2_diag, Forall_forall. intros q Hq. apply HD.
  - cbn in Hr, Hr'. replace (k + S j)%nat with (S k + j)%nat by lia. eapply IH; [|done|exact Hr|exact Hr']. intros i bin' q Hi Hq. replace (S k + i)%nat with (k + S i)%nat by lia. by apply (HE (S i) bin').
Qed.

Lemma blocks_related {A B} (R : A -> B -> Prop) ls ls' : Forall2 (Forall2 R) ls ls' -> Forall2 R (concat ls) (concat ls').
Proof. induction 1 as [|l l' ls ls' Hl _ IH]; [constructor|]. cbn. by apply Forall2_app. Qed.
Lemma concat_related {A} (R : nat * A -> nat * A -> Prop) (ls ls' : list (list A)) : length ls = length ls' -> (forall j r r', ls !! j = Some r -> ls' !! j = Some r' -> Forall2 (fun x y => R (j, x) (j, y)) r r') ->
  Forall2 R (concat (imap (fun b l => map (pair b) l) ls)) (concat (imap (fun b l => map (pair b) l) ls')).
Proof.
  intros HL H. set (g := fun (b : nat) (l : list A) => map (pair b) l). apply blocks_related. apply Forall2_same_length_lookup_2; [by rewrite !imap_length|].
  intros j x y Hx Hy. rewrite list_lookup_imap in Hx, Hy. destruct (ls !! j) as [r|] eqn:E; [|done]. destruct (ls' !! j) as [r'|] eqn:E'; [|done]. cbn in Hx, Hy. injection Hx as <-. injection Hy as <-.
  unfold g. apply Forall2_fmap_2. by apply H.
Qed.

Lemma map_related {A B C} (R : A -> B -> Prop) (f : A -> C) (g : B -> C) l l' : Forall2 R l l' -> (forall x y, R x y -> f x = g y) -> map f l = map g l'.
Proof. intros HF H. induction HF as [|x y l l' Hxy _ IH]; [done|]. cbn. by rewrite IH, (H x y Hxy). Qed.
Lemma related_map {A C} (f : A -> C) l l' : map f l = map f l' -> Forall2 (fun x y => f x = f y) l l'.
Proof. revert l'. induction l as [|x l IH]; intros [|y l2] E; [constructor|done|done|]. cbn in E. injection E as E1 E2. constructor; [done|by apply IH]. Qed.
Lemma related_and {A B} (R Q : A -> B -> Prop) l l' : Forall2 R l l' -> Forall2 Q l l' -> Forall2 (fun x y => R x y /\ Q x y) l l'.
Proof. intros H1. induction H1 as [|x y l l' Hxy _ IH]; intros H2; [constructor|]. apply Forall2_cons in H2 as [? ?]. constructor; [done|by apply IH]. Qed.

Section determined.
Variable (p : dparams) (enc : N -> N) (aes : bool -> N -> N) (prng : N -> N * N) (c c' : dchoices) (serverSet bins inputs inputs' : list N).
Hypothesis Hsz : sizesOk p.
Hypothesis Hlen : length inputs = dN p.
Hypothesis Hlen' : length inputs' = dN p.
Hypothesis Hfit : queriesFit enc p inputs.
Hypothesis Hfit' : queriesFit enc p inputs'.
Hypothesis Hch : choicesOk p c.
Hypothesis Hch' : choicesOk p c'.
Hypothesis Htab : tableOk enc p serverSet bins.
Hypothesis Hlead : regionsLead p bins.
Hypothesis Hreg : forall q b, (q < dN p * dH p)%nat -> inRegion (dSlots p) (N.of_nat (dS p)) b (querySlot enc p inputs q) -> inRegion (dSlots p) (N.of_nat (dS p)) b (querySlot enc p inputs' q).
Hypothesis Hcont : forall q, (q < dN p * dH p)%nat -> slotContent serverSet bins (querySlot enc p inputs' q) = slotContent serverSet bins (querySlot enc p inputs q).
Variable (D G : N) (data : list (N * N)).
Hypothesis HDG : domainParams (dSlots p) (N.of_nat (dS p)) 1 = Done (D, G).
Hypothesis Hdata : tableOf bins serverSet = Some data.
Hypothesis Hsort : sortedTable data.
Hypothesis Hin : forall e, e ∈ data <-> exists c w, bins !! c = Some w /\ w ≠ emptyWord /\ serverSet !! N.to_nat (wordIdx w) = Some e.1 /\ e.2 = N.of_nat c.

Lemma same_bins b : binQ p enc inputs' b = binQ p enc inputs b.
Proof using All. rewrite <- !(queriesTo_bin p enc aes prng c) by done. by apply (same_queries p enc aes prng c inputs inputs'). Qed.

Local Notation rows := (rowsQ p enc aes prng c inputs D G).
Local Notation rows' := (rowsQ p enc aes prng c' inputs' D G).
Local Notation ents := (DrrnRun_Proofs.ents p enc aes prng c inputs D G).
Local Notation ents' := (DrrnRun_Proofs.ents p enc aes prng c' inputs' D G).
Local Notation valE := (DrrnRun_Proofs.valE p aes data).

Lemma ents_related : Forall2 (fun x y => x.1 = y.1 /\ qPi x.2 = qPi y.2 /\ valE x = valE y) ents ents'.
Proof using All.
  apply concat_related; [by rewrite !rowsQ_length|]. intros j r r' Hr Hr'. unfold rowsQ in Hr, Hr'.
  assert (map (binQ p enc inputs') (seq 0 (dS p)) = map (binQ p enc inputs) (seq 0 (dS p))) as Eb by (apply map_ext; intros b; apply same_bins). rewrite Eb in Hr'.
  pose proof (rowsOf_related p (N.to_nat D) (N.to_nat G) (entQ p enc aes prng c inputs D G) (entQ p enc aes prng c' inputs' D G)
    (fun b e e' => qPi e = qPi e' /\ valE (b, e) = valE (b, e')) (map (binQ p enc inputs) (seq 0 (dS p))) 0 (dN p * dH p)) as K. cbn [Nat.add] in K.
  assert (Forall2 (fun e e' => qPi e = qPi e' /\ valE (j, e) = valE (j, e')) r r') as F; [|eapply Forall2_impl; [exact F|]; cbn; tauto].
  apply (fun A B => K A B j r r' Hr Hr').
  - intros k bin q Hk Hq. apply (binQ_lookup p enc aes prng inputs) in Hk as [-> Hk]; [|done..]. split; [done|].
    rewrite (valE_content p enc aes prng c serverSet bins inputs Hsz Hlen Hfit Hch Htab D G data HDG Hdata Hsort Hin k q Hlead Hk Hq).
    rewrite (valE_content p enc aes prng c' serverSet bins inputs' Hsz Hlen' Hfit' Hch' Htab D G data HDG Hdata Hsort Hin k q Hlead Hk); [|by rewrite same_bins].
    symmetry. apply Hcont. unfold binQ in Hq. apply elem_of_list_filter in Hq as [_ Hq]. apply elem_of_seq in Hq. lia.
  - intros b d. done.
Qed.

Hypothesis Hpi : cPi1 c' = cPi1 c.
Hypothesis Hsg : cSigmas c' = cSigmas c.
Hypothesis Hmask : cMask c' = cMask c.

Lemma view0_determined v v' : view0Of p enc aes prng c serverSet bins inputs = Some v -> view0Of p enc aes prng c' serverSet bins inputs' = Some v' -> vKeys v' = vKeys v -> v' = v.
Proof using All.
  intros Hv Hv' Hk. pose proof ents_related as HR.
  destruct (view0_ok p enc aes prng c serverSet bins inputs Hsz Hlen Hfit Hch Htab D G data HDG Hdata Hsort Hin) as (w & Hw & Kw & Pw & _ & Mw). rewrite Hv in Hw. injection Hw as <-.
  destruct (view0_ok p enc aes prng c' serverSet bins inputs' Hsz Hlen' Hfit' Hch' Htab D G data HDG Hdata Hsort Hin) as (w' & Hw' & Kw' & Pw' & _ & Mw'). rewrite Hv' in Hw'. injection Hw' as <-.
  assert (vPi0 v' = vPi0 v /\ vPiS0 v' = vPiS0 v) as [E1 E2].
  { rewrite Hpi, Hmask in Pw'. rewrite (ents_pi p enc aes prng c serverSet bins inputs Hsz Hlen Hfit Hch Htab D G data HDG Hdata Hsort Hin) in Pw.
    rewrite (ents_pi p enc aes prng c' serverSet bins inputs' Hsz Hlen' Hfit' Hch' Htab D G data HDG Hdata Hsort Hin) in Pw'.
    assert (map (fun e => N.to_nat (qPi e.2)) ents' = map (fun e => N.to_nat (qPi e.2)) ents) as E. { symmetry. eapply map_related; [exact HR|]. cbn. intros x y (_ & -> & _). done. }
    rewrite E, Pw in Pw'. by injection Pw'. }
  assert (vMsg1 v' = vMsg1 v) as E3.
  { rewrite Mw, Mw', Hmask. f_equal. symmetry. eapply map_related.
    - apply (related_and _ (fun x y => qK0 x.2 = qK0 y.2) _ _ HR). rewrite Kw, Kw' in Hk. apply (related_map (fun e : nat * qentry => qK0 e.2)).
      unfold DrrnRun_Proofs.ents. rewrite <- !(map_map snd qK0), !concat_imap_snd, <- !concat_fmap_map. change (map qK0 <$> ?l) with (map (map qK0) l). by rewrite Hk.
    - cbn. intros [b e] [b' e'] [(Eb & _ & Ev) Ek]. cbn [fst snd] in *. subst b'. unfold DrrnRun_Proofs.valE in Ev. cbn [fst snd] in Ev. rewrite Ek in Ev. apply (f_equal (N.lxor (shareOf p aes data b (qK0 e')))) in Ev. by rewrite <- !N.lxor_assoc, !N.lxor_nilpotent, !N.lxor_0_l in Ev. }
  assert (vRs v' = vRs v) as E4.
  { unfold view0Of in Hv, Hv'. rewrite Hpi, Hsg, Hmask in Hv'.
    destruct (clientLayout p enc aes prng c inputs), (clientLayout p enc aes prng c' inputs'); try done. rewrite Hdata in Hv, Hv'.
    destruct (clientPerm (piOf p l) _ _ _) as [[? ?]|]; [|done]. destruct (clientPerm (piOf p l0) _ _ _) as [[? ?]|]; [|done].
    destruct (sigmaMasks _ _ _); [|done]. destruct (maskMessage _ _ _); [|done]. destruct (serverShares p aes (map (map qK1) l) _ _); [|done]. destruct (serverShares p aes (map (map qK1) l0) _ _); [|done].
    injection Hv as Hv. injection Hv' as Hv'. by rewrite <- Hv, <- Hv'. }
  clear -Hk E1 E2 E3 E4. destruct v as [a1 a2 a3 a4 a5], v' as [b1 b2 b3 b4 b5]. cbn [vKeys vPi0 vPiS0 vRs vMsg1] in *. congruence.
Qed.
End determined.

Lemma rest_determined p enc aes prng c c' serverSet bins inputs inputs' v v' : sizesOk p -> length inputs = dN p -> length inputs' = dN p -> queriesFit enc p inputs -> queriesFit enc p inputs' ->
  choicesOk p c -> choicesOk p c' -> tableOk enc p serverSet bins -> regionsLead p bins ->
  (forall q b, (q < dN p * dH p)%nat -> inRegion (dSlots p) (N.of_nat (dS p)) b (querySlot enc p inputs q) -> inRegion (dSlots p) (N.of_nat (dS p)) b (querySlot enc p inputs' q)) ->
  (forall q, (q < dN p * dH p)%nat -> slotContent serverSet bins (querySlot enc p inputs' q) = slotContent serverSet bins (querySlot enc p inputs q)) ->
  cPi1 c' = cPi1 c -> cSigmas c' = cSigmas c -> cMask c' = cMask c ->
  view0Of p enc aes prng c serverSet bins inputs = Some v -> view0Of p enc aes prng c' serverSet bins inputs' = Some v' -> vKeys v' = vKeys v -> v' = v.
Proof.
  intros Hsz Hlen Hlen' Hfit Hfit' Hch Hch' Htab Hlead HR HC H1 H2 H3 Hv Hv' Hk.
  destruct (domain_exists p Hsz) as (D & G & HDG & _). assert (dSlots p < 2 ^ 32) as W by (destruct Hsz as (_ & _ & _ & _ & HS & _); change (2 ^ 32) with (2 * 2 ^ 31); lia).
  destruct (tableOf_ok enc p serverSet bins Htab W) as (data & Hd & Hs & Hi).
  by apply (view0_determined p enc aes prng c c' serverSet bins inputs inputs' Hsz Hlen Hlen' Hfit Hfit' Hch Hch' Htab Hlead HR HC D G data HDG Hd Hs Hi H1 H2 H3 v v').
Qed.

Lemma view0_tapes p enc aes prng c serverSet bins inputs D G : sizesOk p -> length inputs = dN p -> queriesFit enc p inputs -> choicesOk p c -> tableOk enc p serverSet bins ->
  (forall b x, x < 2 ^ 128 -> aes b x < 2 ^ 128) -> domainParams (dSlots p) (N.of_nat (dS p)) 1 = Done (D, G) ->
  exists v root tapes, view0Of p enc aes prng c serverSet bins inputs = Some v /\ (forall q, legalTape (N.to_nat D) (N.to_nat G) (tapes q)) /\ vKeys v = keysView aes enc p (N.to_nat D) (N.to_nat G) inputs root tapes.
Proof.
  intros Hsz Hlen Hfit Hch Htab Ha HDG. destruct (domain_exists p Hsz) as (D' & G' & HDG' & HG & HG8). rewrite HDG in HDG'. injection HDG' as <- <-.
  assert (dSlots p < 2 ^ 32) as W by (destruct Hsz as (_ & _ & _ & _ & HS & _); change (2 ^ 32) with (2 * 2 ^ 31); lia).
  destruct (tableOf_ok enc p serverSet bins Htab W) as (data & Hd & Hs & Hi).
  destruct (view0_ok p enc aes prng c serverSet bins inputs Hsz Hlen Hfit Hch Htab D G data HDG Hd Hs Hi) as (v & Hv & Kv & _).
  destruct (view_tapes p enc aes prng c inputs Hsz Hlen Hfit Ha D G HDG ltac:(lia)) as (r0 & r1 & t0 & t1 & HT & E0 & _). exists v, r0, t0. split; [done|]. split; [intros q; apply HT|]. by rewrite Kv, E0.
Qed.
Lemma regions_differ p enc aes prng c c' serverSet bins inputs inputs' v v' i j x x' : sizesOk p -> length inputs = dN p -> length inputs' = dN p -> queriesFit enc p inputs -> queriesFit enc p inputs' ->
  choicesOk p c -> choicesOk p c' -> tableOk enc p serverSet bins -> cPi1 c' = cPi1 c -> inputs !! i = Some x -> inputs' !! i = Some x' -> (j < dH p)%nat ->
  (forall b, inRegion (dSlots p) (N.of_nat (dS p)) b (itemSlot enc (dSlots p) x j) -> ~ inRegion (dSlots p) (N.of_nat (dS p)) b (itemSlot enc (dSlots p) x' j)) ->
  view0Of p enc aes prng c serverSet bins inputs = Some v -> view0Of p enc aes prng c' serverSet bins inputs' = Some v' -> vPi0 v' <> vPi0 v.
Proof.
  intros Hsz Hlen Hlen' Hfit Hfit' Hch Hch' Htab Hp Hx Hx' Hj Hdiff Hv Hv' E.
  destruct (server0_learns p enc aes prng c serverSet bins inputs Hsz Hlen Hfit Hch Htab) as (w & Hw & HL). rewrite Hv in Hw. injection Hw as <-.
  destruct (server0_learns p enc aes prng c' serverSet bins inputs' Hsz Hlen' Hfit' Hch' Htab) as (w' & Hw' & HL'). rewrite Hv' in Hw'. injection Hw' as <-.
  destruct (HL i j x Hx Hj) as [(b & Eb & Ib) _]. destruct (HL' i j x' Hx' Hj) as [(b' & Eb' & Ib') _]. unfold learnedRegion in Eb, Eb'. rewrite Hp, E, Eb in Eb'. injection Eb' as <-. by apply (Hdiff _ Ib).
Qed.

Lemma common_learned p enc aes prng c serverSet bins inputs : sizesOk p -> length inputs = dN p -> queriesFit enc p inputs -> choicesOk p c -> tableOk enc p serverSet bins ->
  regionsLead p bins -> exists v, view0Of p enc aes prng c serverSet bins inputs = Some v /\
    forall i x, inputs !! i = Some x -> x ∈ serverSet -> exists j, (j < dH p)%nat /\ learnedValue p aes (cMask c) (cPi1 c) serverSet bins v i j = Some x.
Proof.
  intros Hsz Hlen Hfit Hch Htab Hlead. destruct (server0_learns p enc aes prng c serverSet bins inputs Hsz Hlen Hfit Hch Htab) as (v & Hv & HL). exists v. split; [done|]. intros i x Hi Hx.
  destruct (content_common enc p serverSet bins x Htab Hx) as (j & Hj & E). exists j. split; [done|]. destruct (HL i j x Hi Hj) as [_ K]. rewrite (K Hlead). by rewrite E.
Qed.
