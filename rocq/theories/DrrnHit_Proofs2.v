(** With two hash functions, secret shuffles hide under which hash function an item is stored. *)
From stdpp Require Import sets.
From Verif Require Import Base Partition_Model CuckooIndex_Model Bgi_Model Bgi_Spec Bgi_Proofs BgiFull_Proofs Drrn_Model Drrn_Spec Drrn_Proofs DrrnMask_Proofs DrrnClient_Proofs DrrnServer_Proofs DrrnRun_Proofs DrrnTop_Proofs.
From Verif Require Import DrrnView_Spec DrrnView_Proofs DrrnView_Proofs2 DrrnHit_Model DrrnHit_Spec DrrnHit_Proofs.

Lemma omap_ext_in {A B} (f g : A -> option B) (l : list A) : (forall x, x ∈ l -> f x = g x) -> omap f l = omap g l.
Proof.
  induction l as [|x l IH]; intros H; [done|]. cbn. rewrite (H x) by left. rewrite IH by (intros; apply H; by right). done.
Qed.

Lemma hitList_ext p enc aes prng c serverSet bins inputs D G data final final' : sizesOk p -> length inputs = dN p -> queriesFit enc p inputs -> choicesOk p c -> tableOk enc p serverSet bins ->
  domainParams (dSlots p) (N.of_nat (dS p)) 1 = Done (D, G) -> tableOf bins serverSet = Some data -> sortedTable data ->
  (forall e, e ∈ data <-> exists c w, bins !! c = Some w /\ w ≠ emptyWord /\ serverSet !! N.to_nat (wordIdx w) = Some e.1 /\ e.2 = N.of_nat c) ->
  (forall q, q ∈ hitList final (rowsQ p enc aes prng c inputs D G) <-> q ∈ hitList final' (rowsQ p enc aes prng c inputs D G)) ->
  hitList final (rowsQ p enc aes prng c inputs D G) = hitList final' (rowsQ p enc aes prng c inputs D G).
Proof.
  intros Hsz Hlen Hfit Hch Htab HDG Hd Hs Hi HQ. unfold hitList at 1 2. apply omap_ext_in. intros e He.
  rewrite <- (concat_imap_snd (rowsQ p enc aes prng c inputs D G)) in He. apply elem_of_list_fmap in He as ([b e'] & -> & He). cbn [snd].
  apply (ents_cases p enc aes prng c serverSet bins inputs Hsz Hlen Hfit Hch Htab D G data HDG Hd Hs Hi) in He as (_ & [(q & Hq & ->)|(d & ->)]); [|done].
  assert (q < dN p * dH p)%nat as Lq by (unfold binQ in Hq; apply elem_of_list_filter in Hq as [_ I]; apply elem_of_seq in I; lia).
  specialize (HQ q). rewrite !(hit_value p enc aes prng c serverSet bins inputs Hsz Hlen Hfit Hch Htab D G data HDG Hd Hs Hi) in HQ. cbn [entQ qReal].
  destruct (decide (N.lxor (cMask c (N.of_nat q)) (itemOf p inputs q) ∈ final)), (decide (N.lxor (cMask c (N.of_nat q)) (itemOf p inputs q) ∈ final')); tauto.
Qed.

Section two.
Variable (p : dparams) (enc : N -> N) (aes : bool -> N -> N) (prng : N -> N * N) (serverSet bins bins' inputs : list N).
Hypothesis Hsz : sizesOk p.
Hypothesis HH : dH p = 2%nat.
Hypothesis Hlen : length inputs = dN p.
Hypothesis Hfit : queriesFit enc p inputs.
Hypothesis Htab : tableOk enc p serverSet bins.
Hypothesis Htab' : tableOk enc p serverSet bins'.
Hypothesis Hlead : regionsLead p bins.
Hypothesis Hlead' : regionsLead p bins'.
Hypothesis HND : NoDup serverSet.
Hypothesis H0 : 0 ∉ inputs.

Definition sameHash (i : nat) : bool :=
  let x := default 0 (inputs !! i) in
  eqb (storedAt enc p serverSet bins' x 0) (storedAt enc p serverSet bins x 0) && eqb (storedAt enc p serverSet bins' x 1) (storedAt enc p serverSet bins x 1).
Definition turned (i : nat) (sg : list nat) : list nat := if sameHash i then sg else reverse sg.
Definition turn (l : list (list nat)) : list (list nat) := imap turned l.

Lemma turned_perm i sg : turned i sg ≡ₚ sg.
Proof. unfold turned. destruct (sameHash i); [done|apply reverse_Permutation]. Qed.
Lemma turn_turn l : turn (turn l) = l.
Proof.
  unfold turn. apply list_eq. intros i. rewrite !list_lookup_imap. destruct (l !! i) as [sg|]; [|done]. cbn. unfold turned. destruct (sameHash i); [done|]. by rewrite reverse_involutive.
Qed.
Lemma turn_ok l : Forall (fun sg => sg ≡ₚ seq 0 2) l -> Forall (fun sg => sg ≡ₚ seq 0 2) (turn l).
Proof.
  rewrite !Forall_forall. intros HF sg Hsg. apply elem_of_lookup_imap_1 in Hsg as (i & sg' & -> & Hs). rewrite turned_perm. apply HF. by eapply elem_of_list_lookup_2.
Qed.

Lemma turned_stored i x sg j' : inputs !! i = Some x -> sg ≡ₚ seq 0 2 -> (j' < 2)%nat ->
  (exists j, (j < 2)%nat /\ arrange (turned i sg) j = j' /\ storedAt enc p serverSet bins' x j = true) <-> (exists j, (j < 2)%nat /\ arrange sg j = j' /\ storedAt enc p serverSet bins x j = true).
Proof using All.
  intros Hx Hsg Hj'. assert (x <> 0) as Hx0 by (intros ->; apply H0; by eapply elem_of_list_lookup_2).
  pose proof (stored_cases enc p serverSet bins bins' x HH HND Htab Htab' Hx0) as HC.
  unfold turned. destruct (sameHash i) eqn:Es; unfold sameHash in Es; rewrite Hx in Es; cbn [default id] in Es; unfold id in Es.
  - apply andb_true_iff in Es as [E0 E1]. apply eqb_prop in E0, E1.
    split; intros (j & Hj & A & B); exists j; split; try done; split; try done; destruct j as [|[|]]; try lia; congruence.
  - assert (forall j, (j < 2)%nat -> storedAt enc p serverSet bins' x j = storedAt enc p serverSet bins x (1 - j)%nat) as HC'.
    { destruct HC as [HC|HC]; [|done]. exfalso. rewrite (HC 0%nat), (HC 1%nat) in Es by lia. by rewrite !eqb_reflx in Es. }
    assert (forall j, (j < 2)%nat -> arrange (reverse sg) j = arrange sg (1 - j)) as HA. { intros j Hj. destruct (two_cases sg Hsg) as [-> | ->]; destruct j as [|[|]]; try lia; by vm_compute. }
    split; intros (j & Hj & A & B); exists (1 - j)%nat; (split; [lia|]).
    + split; [by rewrite <- HA|]. by rewrite <- HC'.
    + rewrite HA by lia. replace (1 - (1 - j))%nat with j by lia. split; [done|]. rewrite HC' by lia. by replace (1 - (1 - j))%nat with j by lia.
Qed.

Lemma hidden_two c : choicesOk p c -> masksFresh p (cMask c) serverSet inputs ->
  drrnHits p enc aes prng (withSigmas c (turn (cSigmas c))) serverSet bins' inputs = drrnHits p enc aes prng c serverSet bins inputs.
Proof using All.
  intros Hch HM. set (c' := withSigmas c (turn (cSigmas c))). assert (choicesOk p c') as Hch'.
  { destruct Hch as (A & B & C & E). split; [done|]. split; [unfold c'; cbn; unfold turn; by rewrite imap_length|]. split; [|done]. rewrite HH in *. by apply turn_ok. }
  destruct (hits_ok p enc aes prng c serverSet bins inputs Hsz Hlen Hfit Hch Htab HM Hlead) as (hits & Eh & Rh & Kh).
  destruct (hits_ok p enc aes prng c' serverSet bins' inputs Hsz Hlen Hfit Hch' Htab' HM Hlead') as (hits' & Eh' & Rh' & Kh').
  assert (forall q, q ∈ hits' <-> q ∈ hits) as HQ.
  { assert (forall q, (q < dN p * dH p)%nat -> q ∈ hits' <-> q ∈ hits) as HQ0; [|intros q; split; intros Hq; (apply HQ0; [by eauto|done])].
    intros q Hq. assert (q / dH p < dN p)%nat as Hi by (rewrite HH in *; apply Nat.div_lt_upper_bound; lia). assert (q mod dH p < dH p)%nat as Hj by (apply Nat.mod_upper_bound; lia).
    destruct (lookup_lt_is_Some_2 inputs (q / dH p)%nat ltac:(lia)) as [x Hx]. assert (q = q / dH p * dH p + q mod dH p)%nat as Eq by (pose proof (Nat.div_mod q (dH p) ltac:(lia)); lia).
    rewrite Eq. rewrite (Kh _ _ x Hx Hj), (Kh' _ _ x Hx Hj). destruct Hch as (_ & Ls & Hsg & _). destruct (lookup_lt_is_Some_2 (cSigmas c) (q / dH p)%nat ltac:(lia)) as [sg Hs].
    rewrite Forall_forall in Hsg. pose proof (Hsg sg (elem_of_list_lookup_2 _ _ _ Hs)) as Ps. rewrite HH in Ps, Hj |- *. pose proof (turned_stored (q / 2) x sg (q mod 2) ltac:(by rewrite HH in Hx) Ps Hj) as HT.
    rewrite HH in Hs. unfold c', withSigmas, turn. cbn [cSigmas]. rewrite list_lookup_imap, Hs. cbn [fmap option_fmap option_map]. unfold storedAt in HT.
    split.
    - intros (sg' & j & E & Hj0 & A & B). injection E as <-. destruct (proj1 HT) as (j2 & A1 & A2 & A3); [exists j; split; [done|]; split; [done|]; by apply bool_decide_eq_true|].
      apply bool_decide_eq_true in A3. exists sg, j2. done.
    - intros (sg' & j & E & Hj0 & A & B). injection E as <-. destruct (proj2 HT) as (j2 & A1 & A2 & A3); [exists j; split; [done|]; split; [done|]; by apply bool_decide_eq_true|].
      apply bool_decide_eq_true in A3. exists (turned (q / 2) sg), j2. done. }
  rewrite Eh, Eh'. f_equal.
  destruct (domain_exists p Hsz) as (D & G & HDG & _ & _). assert (dSlots p < 2 ^ 32) as W by (destruct Hsz as (_ & _ & _ & _ & HSl & _); change (2 ^ 32) with (2 * 2 ^ 31); lia).
  destruct (tableOf_ok enc p serverSet bins Htab W) as (data & Hd & Hs & Hi). destruct (tableOf_ok enc p serverSet bins' Htab' W) as (data' & Hd' & Hs' & Hi').
  destruct (hits_values p enc aes prng c serverSet bins inputs Hsz Hlen Hfit Hch Htab D G data HDG Hd Hs Hi) as (f & r & Ef & _). rewrite Eh in Ef. injection Ef as ->.
  destruct (hits_values p enc aes prng c' serverSet bins' inputs Hsz Hlen Hfit Hch' Htab' D G data' HDG Hd' Hs' Hi') as (f' & r' & Ef' & _). rewrite Eh' in Ef'. injection Ef' as ->.
  change (rowsQ p enc aes prng c' inputs D G) with (rowsQ p enc aes prng c inputs D G) in *.
  by apply (hitList_ext p enc aes prng c serverSet bins inputs D G data f' f).
Qed.
End two.

Lemma two_hashes p enc aes prng serverSet bins bins' inputs : sizesOk p -> dH p = 2%nat -> length inputs = dN p -> queriesFit enc p inputs ->
  tableOk enc p serverSet bins -> tableOk enc p serverSet bins' -> regionsLead p bins -> regionsLead p bins' -> NoDup serverSet -> 0 ∉ inputs ->
  exists F, (forall l, F (F l) = l) /\ (forall l, Forall (fun sg => sg ≡ₚ seq 0 2) l -> Forall (fun sg => sg ≡ₚ seq 0 2) (F l) /\ length (F l) = length l) /\
    forall c, choicesOk p c -> masksFresh p (cMask c) serverSet inputs ->
      drrnHits p enc aes prng (withSigmas c (F (cSigmas c))) serverSet bins' inputs = drrnHits p enc aes prng c serverSet bins inputs.
Proof.
  intros Hsz HH Hlen Hfit Ht Ht' Hl Hl' ND H0. exists (turn p enc serverSet bins bins' inputs). split; [apply turn_turn|]. split.
  - intros l Hl0. split; [by apply turn_ok|]. unfold turn. apply imap_length.
  - intros c Hc HM. by apply (hidden_two p enc aes prng).
Qed.
