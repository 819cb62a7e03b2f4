(** RR17a: uniform slots and mask places hide the order of the sender's items. *)
From stdpp Require Import sets.
From Verif Require Import Base Bgi_Proofs Partition_Model Partition_Proofs Dcw_Spec Dcw_Proofs Ecdh_Proofs Rr17_Model Rr17_Proofs Rr17a_Model Rr17a_Spec Rr17a_Proofs
  Order_Spec Order_Proofs OrderRr17_Spec.
From Verif Require Rr17b_Proofs.

(** ** Lists *)

Lemma finite_choice {A} (Q : nat -> A -> Prop) (d : A) n : (forall b, (b < n)%nat -> exists h, Q b h) -> exists f, forall b, (b < n)%nat -> Q b (f b).
Proof.
  induction n as [|n IH]; intros H; [exists (fun _ => d); intros; lia|]. destruct IH as [f Hf]; [intros b Hb; apply H; lia|]. destruct (H n ltac:(lia)) as [h Hh].
  exists (fun b => if decide (b = n) then h else f b). intros b Hb. destruct (decide (b = n)) as [->|]; [done|]. apply Hf. lia.
Qed.

Lemma mean_split (R : list N) (l : list N) cap : (length l <= cap)%nat ->
  map (mean R) l ++ replicate (cap - length l) None ≡ₚ map Some (filter (fun x => x ∈ R) l) ++ replicate (cap - length (filter (fun x => x ∈ R) l)) None.
Proof.
  revert cap. induction l as [|x l IH]; intros cap H; [done|]. cbn [length] in H. destruct cap as [|cap]; [lia|]. specialize (IH cap ltac:(lia)).
  cbn [map length]. replace (Datatypes.S cap - Datatypes.S (length l))%nat with (cap - length l)%nat by lia. rewrite filter_cons. unfold mean at 1. destruct (decide (x ∈ R)) as [Q|Q].
  - cbn [map length]. replace (Datatypes.S cap - Datatypes.S (length (filter (fun x => x ∈ R) l)))%nat with (cap - length (filter (fun x => x ∈ R) l))%nat by lia.
    rewrite <- !app_comm_cons. by rewrite IH.
  - rewrite <- app_comm_cons, IH. pose proof (filter_length (fun x => x ∈ R) l) as L.
    replace (Datatypes.S cap - length (filter (fun x => x ∈ R) l))%nat with (Datatypes.S (cap - length (filter (fun x => x ∈ R) l))) by lia. cbn [replicate]. by rewrite Permutation_middle.
Qed.
Lemma match_padded (R : list N) cap (B B' : list N) : NoDup B -> NoDup B' -> (length B <= cap)%nat -> (length B' <= cap)%nat -> (forall x, x ∈ R -> (x ∈ B <-> x ∈ B')) ->
  exists h, relabels cap h /\ forall q x, x ∈ R -> B !! q = Some x -> B' !! h q = Some x.
Proof.
  intros D D' L L' H. assert (filter (fun x => x ∈ R) B ≡ₚ filter (fun x => x ∈ R) B') as Hf.
  { apply list.NoDup_Permutation; [by apply NoDup_filter|by apply NoDup_filter|]. intros x. rewrite !elem_of_list_filter. naive_solver. }
  pose proof (mean_split R B cap L) as E. pose proof (mean_split R B' cap L') as E'. rewrite <- (Permutation_length Hf), <- (Permutation_map Some Hf) in E'. rewrite <- E' in E.
  assert (length (map (mean R) B ++ replicate (cap - length B) None) = cap) as Len by (rewrite app_length, map_length, replicate_length; lia).
  destruct (perm_maps _ _ E) as (h & h' & Hh). rewrite Len in Hh. exists h. split.
  - exists h'. intros i Hi. destruct (Hh i Hi) as (? & ? & ? & ? & _). done.
  - intros q x Hx Hq. pose proof (lookup_lt_Some _ _ _ Hq) as Lq. destruct (Hh q ltac:(lia)) as (H1 & _ & _ & _ & H5 & _).
    rewrite (lookup_app_l _ _ q) in H5 by (by rewrite map_length). rewrite (list_lookup_fmap _ B), Hq in H5. cbn in H5. unfold mean at 2 in H5. rewrite decide_True in H5 by done.
    destruct (decide (h q < length B')%nat) as [Hlt|Hge].
    + rewrite lookup_app_l in H5 by (by rewrite map_length). rewrite list_lookup_fmap in H5. destruct (B' !! h q) as [x'|] eqn:Ex; [|done]. cbn in H5. unfold mean in H5. destruct (decide (x' ∈ R)); [congruence|done].
    + rewrite lookup_app_r in H5 by (rewrite map_length; lia). apply lookup_replicate in H5 as [H5 _]. done.
Qed.

(** ** The rows *)

Lemma sendAssign_elem shuf bins pls asg t b base bin q i s : sendAssign shuf bins pls = Some asg -> (t, b, base) ∈ pls -> bins !! b = Some bin -> bin !! q = Some i ->
  shuf b !! s = Some q -> (i, (base + s)%nat) ∈ asg.
Proof.
  revert asg. induction pls as [|[[t' b'] base'] pls IH]; intros asg E Hin Hb Hq Hs; [by apply elem_of_nil in Hin|]. cbn [sendAssign] in E.
  destruct (bins !! b') as [bin'|] eqn:Eb; [|done]. destruct (sendAssign shuf bins pls) as [r|]; [|done]. injection E as <-. apply elem_of_app.
  apply elem_of_cons in Hin as [Hin|Hin]; [left|right; by apply IH]. injection Hin as <- <- <-. rewrite Hb in Eb. injection Eb as <-.
  apply elem_of_list_fmap. exists (i, s). split; [done|]. unfold sendSlots. apply elem_of_list_omap. exists (s, q). cbn [fst snd]. rewrite Hq. split; [|done].
  apply elem_of_list_lookup. exists s. apply lookup_zip_with_Some. exists s, q. split; [done|]. split; [|done]. apply lookup_seq. split; [done|]. by eapply lookup_lt_Some.
Qed.

Lemma party_slot P items bins enc inp asg : paramsOk P items -> binsOk P items bins ->
  (forall t, (t < pT P)%nat -> exists parts, asg t = concat parts /\ Forall2 (partOk (pCap P) bins) (placesOf (pCap P) (pNb P) (pT P) t) parts) ->
  forall t i s, (t < pT P)%nat -> (i, s) ∈ asg t -> (i < pN P)%nat ->
    threadMasks enc inp (map asg (seq 0 (pT P))) (replicate (pN P) 0) !! i = Some (enc t s (default 0 (inp !! i))).
Proof.
  intros (Hn & Hnb & Hcap & HT & HM & Hw & HL & HC) HB HA t i s Ht Hi Hin.
  destruct (finite_choice (fun t parts => asg t = concat parts /\ Forall2 (partOk (pCap P) bins) (placesOf (pCap P) (pNb P) (pT P) t) parts) [] (pT P) HA) as [fp HF].
  assert (NoDup (concat (map asg (seq 0 (pT P)))).*1) as ND.
  { assert ((concat (map asg (seq 0 (pT P)))).*1 ≡ₚ concat (map (fun pl : nat * nat * nat => default [] (bins !! pl.1.2)) (places (pCap P) (pNb P) (pT P)))) as E.
    { unfold places. assert (forall ts, (forall t, t ∈ ts -> (t < pT P)%nat) ->
        (concat (map asg ts)).*1 ≡ₚ concat (map (fun pl : nat * nat * nat => default [] (bins !! pl.1.2)) (concat (map (placesOf (pCap P) (pNb P) (pT P)) ts)))) as G.
      { induction ts as [|t0 ts IH]; intros Hts; [done|]. cbn [map concat]. rewrite fmap_app, map_app, concat_app. destruct (HF t0) as [Ea F]; [apply Hts; left|]. rewrite Ea.
        rewrite (Forall2_parts_fst _ _ _ _ F). apply Permutation_app_head. apply IH. intros t' Ht'. apply Hts. by right. }
      apply G. intros t0 Ht0. apply elem_of_seq in Ht0. lia. }
    rewrite E. rewrite (binsOk_all P items bins (places (pCap P) (pNb P) (pT P)) Hnb HB); [apply NoDup_seq|]. by rewrite places_bins. }
  destruct (threadMasks_gen enc inp (map asg (seq 0 (pT P))) 0 (replicate (pN P) 0)) as (_ & _ & A).
  unfold threadMasks. rewrite (A ND t (asg t) i s); [done| |done|by rewrite replicate_length].
  rewrite (list_lookup_fmap asg), lookup_seq_lt by done. done.
Qed.

(** The items in the order of the rows. *)
Definition rowItems (bins : list (list nat)) (pls : list (nat * nat * nat)) : list nat := concat (map (fun pl : nat * nat * nat => default [] (bins !! pl.1.2)) pls).

Lemma sent_rows P rd S : paramsOk P S -> randOk P rd ->
  exists rows bins, sentA P rd S = Some rows /\ length rows = pN P /\ mkBins P S (rOrdS rd) = Some bins /\ binsOk P S bins /\ rowItems bins (rPlaces rd) ≡ₚ seq 0 (pN P) /\
  forall k j p y t base bin q s, rowItems bins (rPlaces rd) !! k = Some j -> rMaskPerm rd !! k = Some p -> S !! j = Some y ->
    (t, itemBin P y, base) ∈ places (pCap P) (pNb P) (pT P) -> bins !! itemBin P y = Some bin -> bin !! q = Some j -> rShuf rd (itemBin P y) !! s = Some q ->
    rows !! p = Some (map (fun l => fullMask P t base l s y mod 2 ^ (8 * pMask P)) (seq 0 (pCap P))).
Proof.
  intros HS HD. pose proof HS as (Hn & Hnb & Hcap & HT & HM & Hw & HLS & HCS).
  destruct HD as (D1 & D2 & D3 & D4 & D5 & D6). destruct (mkBins_ok P S _ HS D4) as (bins & ES & OS). unfold sentA. rewrite ES.
  assert (forall t b base, (t < pT P)%nat -> (t, b, base) ∈ placesOf (pCap P) (pNb P) (pT P) t -> exists bin, bins !! b = Some bin /\ (length bin <= pCap P)%nat) as BIN.
  { intros t b base Ht Hpl. assert (b < pNb P)%nat as Hb.
    { assert (b ∈ seq 0 (pNb P)) as Hb; [|apply elem_of_seq in Hb; lia]. rewrite <- (places_bins (pCap P) (pNb P) (pT P) HT Hw).
      apply elem_of_list_fmap. exists (t, b, base). split; [done|]. unfold places. apply elem_of_concat. eexists. split; [exact Hpl|].
      apply elem_of_list_fmap. exists t. split; [done|]. apply elem_of_seq. lia. }
    destruct (binsOk_elem P S bins b 0 OS Hb) as (bin & E & _). exists bin. split; [done|]. by eapply binsOk_length. }
  set (fS := fun t => sendAssign (rShuf rd) bins (placesOf (pCap P) (pNb P) (pT P) t)).
  assert (forall t, (t < pT P)%nat -> exists parts, fS t = Some (concat parts) /\ Forall2 (partOk (pCap P) bins) (placesOf (pCap P) (pNb P) (pT P) t) parts) as AS.
  { intros t Ht. apply sendAssign_ok; [done|]. intros t' b base H. pose proof (placesOf_fst _ _ _ _ _ H) as E. cbn in E. subst t'. by eapply BIN. }
  set (gS := fun t => default [] (fS t)).
  assert (mapM fS (seq 0 (pT P)) = Some (map gS (seq 0 (pT P)))) as ->.
  { apply mapM_total. intros t Ht. apply elem_of_seq in Ht. destruct (AS t ltac:(lia)) as (parts & E & _). unfold gS. by rewrite E. }
  cbv zeta. set (masksS := threadMasks (pEncS P) (map (nco P) S) (map gS (seq 0 (pT P))) (replicate (pN P) 0)).
  assert (forall t, (t < pT P)%nat -> exists parts, gS t = concat parts /\ Forall2 (partOk (pCap P) bins) (placesOf (pCap P) (pNb P) (pT P) t) parts) as AS'.
  { intros t Ht. destruct (AS t Ht) as (parts & E & F). exists parts. split; [|done]. unfold gS. by rewrite E. }
  pose proof (party_slot P S bins (pEncS P) (map (nco P) S) gS HS OS AS') as MS. fold masksS in MS.
  assert (rowItems bins (rPlaces rd) ≡ₚ seq 0 (pN P)) as HJ.
  { unfold rowItems. rewrite <- HLS. apply (binsOk_all P S bins); [done|done|]. rewrite (Permutation_map _ D5), places_bins by done. done. }
  set (js := rowItems bins (rPlaces rd)) in *.
  set (row := fun j => match list_find (fun pl : nat * nat * nat => pl.1.2 = itemBin P (default 0 (S !! j))) (places (pCap P) (pNb P) (pT P)) with
                       | Some (_, (t, _, base)) => map (fun m => m mod 2 ^ (8 * pMask P)) (itemMasks (pEncR P) (pCap P) (map (nco P) S) masksS t base j) | None => [] end).
  assert (forall t b base j y, (t, b, base) ∈ places (pCap P) (pNb P) (pT P) -> S !! j = Some y -> itemBin P y = b ->
    row j = map (fun m => m mod 2 ^ (8 * pMask P)) (itemMasks (pEncR P) (pCap P) (map (nco P) S) masksS t base j)) as ROW.
  { intros t b base j y Hpl Hj Hb. unfold row. rewrite Hj. cbn [default]. unfold id. rewrite Hb.
    destruct (list_find (fun pl : nat * nat * nat => pl.1.2 = b) (places (pCap P) (pNb P) (pT P))) as [[k [[t' b'] base']]|] eqn:E.
    - apply list_find_Some in E as (Ek & E & _). cbn in E. subst b'. destruct (places_unique _ _ _ _ _ _ _ _ HT Hw Hpl (elem_of_list_lookup_2 _ _ _ Ek)) as [-> ->]. done.
    - apply list_find_None in E. rewrite Forall_forall in E. exfalso. by apply (E _ Hpl). }
  assert (sendRows P (map (nco P) S) masksS bins (rPlaces rd) = map row js) as ->.
  { unfold sendRows, js, rowItems. rewrite <- concat_map_map, map_map. f_equal. apply map_ext_in. intros [[t b] base] Hpl. cbn [fst snd]. apply map_ext_in. intros j Hj.
    apply elem_of_list_In in Hpl, Hj. rewrite D5 in Hpl. assert (b < pNb P)%nat as Hb.
    { assert (b ∈ seq 0 (pNb P)) as Hb; [|apply elem_of_seq in Hb; lia]. rewrite <- (places_bins (pCap P) (pNb P) (pT P) HT Hw). apply elem_of_list_fmap. by exists (t, b, base). }
    destruct (binsOk_elem P S bins b j OS Hb) as (bin & Eb & _ & HI). rewrite Eb in Hj. apply HI in Hj as (y & Ey & Hy). symmetry. by apply (ROW t b base j y). }
  destruct (placeRows_gen (map row js) (rMaskPerm rd) (replicate (pN P) (replicate (pCap P) 0))) as (rows & EP & LR & _ & A).
  { by rewrite map_length, D2, HJ. }
  { rewrite D2. apply NoDup_seq. }
  { intros p Hp. rewrite D2 in Hp. apply elem_of_seq in Hp. rewrite replicate_length. lia. }
  exists rows, bins. split; [done|]. split; [by rewrite LR, replicate_length|]. split; [done|]. split; [done|]. split; [done|].
  intros k j p y t base bin q s Hk Hp Hy Hpl Hbin Hq Hs. fold js in Hk. apply (A k); [done|]. rewrite list_lookup_fmap, Hk. cbn. f_equal. rewrite (ROW t _ base j y Hpl Hy eq_refl).
  assert (t < pT P)%nat as Ht.
  { pose proof Hpl as Hpl0. unfold places in Hpl0. apply elem_of_concat in Hpl0 as (l & Hl & H). apply elem_of_list_fmap in H as (t' & -> & Ht'). apply placesOf_fst in Hl. cbn in Hl. subst t'. apply elem_of_seq in Ht'. lia. }
  assert ((t, itemBin P y, base) ∈ placesOf (pCap P) (pNb P) (pT P) t) as Hpl'.
  { destruct (places_exists (pCap P) (pNb P) (pT P) (itemBin P y) HT Hw) as (t2 & base2 & H2 & Ht2 & H2'); [by apply itemBin_lt|].
    destruct (places_unique _ _ _ _ _ _ _ _ HT Hw Hpl H2) as [-> ->]. done. }
  destruct (AS t Ht) as (parts & Ef & _).
  assert ((j, (base + s)%nat) ∈ gS t) as Hin. { unfold gS. rewrite Ef. by apply (sendAssign_elem (rShuf rd) bins (placesOf (pCap P) (pNb P) (pT P) t) (concat parts) t (itemBin P y) base bin q j s). }
  assert (j < pN P)%nat as Hj by (rewrite <- HLS; by eapply lookup_lt_Some).
  specialize (MS t j (base + s)%nat Ht Hin Hj). unfold itemMasks. rewrite map_map. apply map_ext. intros l. rewrite MS, list_lookup_fmap, Hy. done.
Qed.

(** ** Hiding *)

Lemma looks_concat {A} (known : A -> Prop) rows rows' : Forall2 (looksAlike known) rows rows' -> looksAlike known (concat rows) (concat rows').
Proof. induction 1 as [|r r' rows rows' H F IH]; [constructor|]. cbn. by apply Forall2_app. Qed.

Lemma fullMask_mask P t base l s y : (t, itemBin P y, base) ∈ places (pCap P) (pNb P) (pT P) -> (l < pCap P)%nat -> (s < pCap P)%nat -> maskOf P y (fullMask P t base l s y mod 2 ^ (8 * pMask P)).
Proof. intros H1 H2 H3. by exists t, base, l, s. Qed.

Definition itemsAt (S : list N) (js : list nat) : list N := map (fun j => default 0 (S !! j)) js.
Lemma itemsAt_lookup S js k j : js !! k = Some j -> itemsAt S js !! k = Some (default 0 (S !! j)).
Proof. intros H. unfold itemsAt. by rewrite list_lookup_fmap, H. Qed.
Lemma itemsAt_perm S js n : length S = n -> js ≡ₚ seq 0 n -> itemsAt S js ≡ₚ S.
Proof. intros <- H. unfold itemsAt. rewrite (Permutation_map _ H). by rewrite Rr17b_Proofs.map_lookup_seq'. Qed.
Lemma itemsAt_elem S js x : (forall j, j ∈ js -> (j < length S)%nat) -> x ∈ itemsAt S js <-> exists j, j ∈ js /\ S !! j = Some x.
Proof.
  intros H. unfold itemsAt. rewrite elem_of_list_fmap. split; intros (j & H1 & H2).
  - exists j. split; [done|]. destruct (lookup_lt_is_Some_2 S j (H j H2)) as [y Hy]. rewrite Hy in H1. cbn in H1. unfold id in H1. by rewrite H1.
  - exists j. by rewrite H2.
Qed.
Lemma itemsAt_NoDup S js : NoDup S -> NoDup js -> (forall j, j ∈ js -> (j < length S)%nat) -> NoDup (itemsAt S js).
Proof.
  intros DS D H. apply NoDup_alt. intros a b x Ha Hb. unfold itemsAt in Ha, Hb. apply list_lookup_fmap_Some in Ha as (i & Ha & Ei), Hb as (j & Hb & Ej).
  destruct (lookup_lt_is_Some_2 S i) as [y Hy]; [apply H; by eapply elem_of_list_lookup_2|]. destruct (lookup_lt_is_Some_2 S j) as [z Hz]; [apply H; by eapply elem_of_list_lookup_2|].
  rewrite Hy in Ei. rewrite Hz in Ej. cbn in Ei, Ej. unfold id in Ei, Ej. subst y z. assert (i = j) as <- by (by apply (NoDup_lookup S i j x)). by apply (NoDup_lookup js a b i).
Qed.

(** Two schedules. *)
Lemma rr17a_hidden P R S S' ord ord' pls pls' : sameCommon R S S' -> paramsOk P S -> paramsOk P S' -> noSharedMask P R (S ++ S') ->
  ord ≡ₚ seq 0 (pN P) -> ord' ≡ₚ seq 0 (pN P) -> pls ≡ₚ places (pCap P) (pNb P) (pT P) -> pls' ≡ₚ places (pCap P) (pNb P) (pT P) ->
  exists h hb, relabels (pN P) h /\ (forall b, (b < pNb P)%nat -> relabels (pCap P) (hb b)) /\
    forall rd rd', randOk P rd -> randOk P rd' -> rOrdS rd = ord -> rOrdS rd' = ord' -> rPlaces rd = pls -> rPlaces rd' = pls' ->
      (forall k, (k < pN P)%nat -> rMaskPerm rd' !! h k = rMaskPerm rd !! k) -> (forall b, (b < pNb P)%nat -> rShuf rd' b = map (hb b) (rShuf rd b)) ->
      exists rows rows', sentA P rd S = Some rows /\ sentA P rd' S' = Some rows' /\ looksAlike (maskOfSome P R) (concat rows) (concat rows').
Proof.
  intros Hc HS HS' HM Ho Ho' Hpl Hpl'. pose proof HS as (Hn & Hnb & Hcap & HT & _ & Hw & L & HC). pose proof HS' as (_ & _ & _ & _ & _ & _ & L' & HC').
  pose proof Hc as (DS & DS' & _ & Hcom).
  destruct (mkBins_ok P S ord HS Ho) as (bins & EB & OB). destruct (mkBins_ok P S' ord' HS' Ho') as (bins' & EB' & OB').
  set (js := rowItems bins pls). set (js' := rowItems bins' pls').
  assert (js ≡ₚ seq 0 (pN P)) as Pj. { unfold js, rowItems. rewrite <- L. apply (binsOk_all P S bins); [done|done|]. rewrite (Permutation_map _ Hpl), places_bins by done. done. }
  assert (js' ≡ₚ seq 0 (pN P)) as Pj'. { unfold js', rowItems. rewrite <- L'. apply (binsOk_all P S' bins'); [done|done|]. rewrite (Permutation_map _ Hpl'), places_bins by done. done. }
  assert (itemsAt S js ≡ₚ S) as PI by (by apply (itemsAt_perm S js (pN P))). assert (itemsAt S' js' ≡ₚ S') as PI' by (by apply (itemsAt_perm S' js' (pN P))).
  destruct (match_positions R (itemsAt S js) (itemsAt S' js')) as (h & Rh & Hh).
  { split; [by rewrite PI|]. split; [by rewrite PI'|]. split; [by rewrite PI, PI', L, L'|]. intros x Hx. rewrite PI, PI'. by apply Hcom. }
  rewrite PI, L in Rh.
  assert (forall T bs b bin, paramsOk P T -> NoDup T -> binsOk P T bs -> (b < pNb P)%nat -> bs !! b = Some bin ->
    NoDup (itemsAt T bin) /\ (length (itemsAt T bin) <= pCap P)%nat /\ (forall j, j ∈ bin -> (j < length T)%nat) /\ forall x, x ∈ itemsAt T bin <-> x ∈ T /\ itemBin P x = b) as HB.
  { intros T bs b bin HT' DT OT Hb Eb. assert (forall j, j ∈ bin <-> exists x, T !! j = Some x /\ itemBin P x = b) as HI.
    { intros j. destruct (binsOk_elem P T bs b j OT Hb) as (bin2 & E2 & _ & HI). rewrite Eb in E2. injection E2 as <-. done. }
    assert (NoDup bin) as DB. { destruct (binsOk_elem P T bs b 0 OT Hb) as (bin2 & E2 & D2 & _). rewrite Eb in E2. by injection E2 as <-. }
    assert (forall j, j ∈ bin -> (j < length T)%nat) as Hlt. { intros j (x & Hx & _)%HI. by eapply lookup_lt_Some. }
    split; [by apply itemsAt_NoDup|]. split.
    { unfold itemsAt. rewrite map_length. eapply (binsOk_length P T bs b bin); [done| |done]. apply HT'. }
    split; [done|]. intros x. rewrite itemsAt_elem by done. split.
    - intros (j & (y & Hy & E)%HI & Hx). rewrite Hx in Hy. injection Hy as <-. split; [by eapply elem_of_list_lookup_2|done].
    - intros [(j & Hj)%elem_of_list_lookup E]. exists j. split; [|done]. apply HI. eauto. }
  destruct (finite_choice (fun b hb => relabels (pCap P) hb /\ forall bin bin' q x, bins !! b = Some bin -> bins' !! b = Some bin' -> x ∈ R -> itemsAt S bin !! q = Some x -> itemsAt S' bin' !! hb q = Some x)
    id (pNb P)) as (hb & Hhb).
  { intros b Hb. destruct (binsOk_elem P S bins b 0 OB Hb) as (bin & Eb & _). destruct (binsOk_elem P S' bins' b 0 OB' Hb) as (bin' & Eb' & _).
    destruct (HB S bins b bin HS DS OB Hb Eb) as (A1 & A2 & _ & A3). destruct (HB S' bins' b bin' HS' DS' OB' Hb Eb') as (B1 & B2 & _ & B3).
    destruct (match_padded R (pCap P) (itemsAt S bin) (itemsAt S' bin') A1 B1 A2 B2) as (hb & Rb & Hb2).
    { intros x Hx. rewrite A3, B3. by rewrite (Hcom x Hx). }
    exists hb. split; [done|]. intros bin2 bin2' q x E2 E2' Hx Hq. rewrite Eb in E2. rewrite Eb' in E2'. injection E2 as <-. injection E2' as <-. by apply Hb2. }
  exists h, hb. split; [done|]. split; [intros b Hb; by apply Hhb|].
  intros rd rd' HD HD' E1 E2 E3 E4 Hmp Hsh. destruct (sent_rows P rd S HS HD) as (rows & bs & ER & LR & EB1 & _ & _ & A). destruct (sent_rows P rd' S' HS' HD') as (rows' & bs' & ER' & LR' & EB1' & _ & _ & A').
  rewrite E1, EB in EB1. injection EB1 as <-. rewrite E2, EB' in EB1'. injection EB1' as <-. rewrite E3 in A. rewrite E4 in A'. fold js in A. fold js' in A'.
  exists rows, rows'. split; [done|]. split; [done|]. apply looks_concat. apply Forall2_same_length_lookup_2; [lia|]. intros p r r' Hr Hr'.
  pose proof HD as (D1 & D2 & _). pose proof HD' as (D1' & D2' & _).
  assert (p ∈ rMaskPerm rd) as Hp. { rewrite D2. apply elem_of_seq. apply lookup_lt_Some in Hr. lia. }
  apply elem_of_list_lookup in Hp as (k & Hk). assert (k < pN P)%nat as Hkn. { apply lookup_lt_Some in Hk. by rewrite D2, seq_length in Hk. }
  assert (length js = pN P) as Lj by (by rewrite Pj, seq_length). assert (length js' = pN P) as Lj' by (by rewrite Pj', seq_length).
  destruct (lookup_lt_is_Some_2 js k ltac:(lia)) as [j Hj]. assert (h k < pN P)%nat as Hhk by (destruct Rh as (h' & Rh); by apply Rh).
  destruct (lookup_lt_is_Some_2 js' (h k) ltac:(lia)) as [j' Hj'].
  assert (forall (T : list N) n l j, length T = n -> l ≡ₚ seq 0 n -> j ∈ l -> exists y, T !! j = Some y) as Hitem.
  { intros T n l j0 <- Pl Hin. apply lookup_lt_is_Some_2. rewrite Pl in Hin. apply elem_of_seq in Hin. lia. }
  destruct (Hitem S (pN P) js j L Pj) as [y Hy]; [by eapply elem_of_list_lookup_2|]. destruct (Hitem S' (pN P) js' j' L' Pj') as [y' Hy']; [by eapply elem_of_list_lookup_2|].
  (* the rows *)
  assert (forall T bs ji yi rdi, paramsOk P T -> binsOk P T bs -> T !! ji = Some yi -> (forall b, rShuf rdi b ≡ₚ seq 0 (pCap P)) ->
    exists t base bin q s, (t, itemBin P yi, base) ∈ places (pCap P) (pNb P) (pT P) /\ bs !! itemBin P yi = Some bin /\ bin !! q = Some ji /\ rShuf rdi (itemBin P yi) !! s = Some q /\ (s < pCap P)%nat) as Hex.
  { intros T bs ji yi rdi HT' OT Hji Dsh. destruct (places_exists (pCap P) (pNb P) (pT P) (itemBin P yi) HT Hw (itemBin_lt P yi Hnb)) as (t & base & Hp2 & _).
    destruct (binsOk_elem P T bs (itemBin P yi) ji OT (itemBin_lt P yi Hnb)) as (bin & Ebin & _ & HI). assert (ji ∈ bin) as (q & Hq)%elem_of_list_lookup by (apply HI; eauto).
    assert (q ∈ rShuf rdi (itemBin P yi)) as (s & Hs)%elem_of_list_lookup.
    { rewrite Dsh. apply elem_of_seq. apply lookup_lt_Some in Hq. assert (length bin <= pCap P)%nat; [|lia]. eapply (binsOk_length P T bs); [done| |done]. apply HT'. }
    exists t, base, bin, q, s. repeat (split; [done|]). apply lookup_lt_Some in Hs. by rewrite Dsh, seq_length in Hs. }
  destruct (Hex S bins j y rd HS OB Hy D1) as (t & base & bin & q & s & P1 & P2 & P3 & P4 & P5).
  destruct (Hex S' bins' j' y' rd' HS' OB' Hy' D1') as (t' & base' & bin' & q' & s' & P1' & P2' & P3' & P4' & P5').
  pose proof (A k j p y t base bin q s Hj Hk Hy P1 P2 P3 P4) as Er. pose proof (A' (h k) j' p y' t' base' bin' q' s' Hj' ltac:(by rewrite Hmp) Hy' P1' P2' P3' P4') as Er'.
  rewrite Hr in Er. rewrite Hr' in Er'. injection Er as ->. injection Er' as ->.
  destruct (Hh k y) as (y2 & Hy2 & Hcase). { rewrite (itemsAt_lookup S js k j Hj), Hy. done. }
  rewrite (itemsAt_lookup S' js' (h k) j' Hj'), Hy' in Hy2. cbn in Hy2. unfold id in Hy2. injection Hy2 as <-.
  assert (forall x T t base s, T = S \/ T = S' -> x ∈ T -> x ∉ R -> (t, itemBin P x, base) ∈ places (pCap P) (pNb P) (pT P) -> (s < pCap P)%nat ->
    forall l, (l < pCap P)%nat -> ~ maskOfSome P R (fullMask P t base l s x mod 2 ^ (8 * pMask P))) as Hnot.
  { intros x T t0 base0 s0 HTS Hx Hnx Hp0 Hs0 l Hl (z & Hz & Mz). apply Hnx. rewrite <- (HM z x (fullMask P t0 base0 l s0 x mod 2 ^ (8 * pMask P))); [done|done| |done|by apply fullMask_mask].
    apply elem_of_app. destruct HTS as [->| ->]; auto. }
  apply Forall2_same_length_lookup_2; [by rewrite !map_length|]. intros l m m' Hm Hm'. apply list_lookup_fmap_Some in Hm as (l1 & Hl1 & ->), Hm' as (l2 & Hl2 & ->).
  rewrite Hl1 in Hl2. injection Hl2 as <-. apply lookup_seq in Hl1 as [-> Hl]. cbn [Nat.add].
  assert (y ∈ S) as Sy by (by eapply elem_of_list_lookup_2). assert (y' ∈ S') as Sy' by (by eapply elem_of_list_lookup_2).
  destruct Hcase as [<-|[N1 N2]].
  - destruct (decide (y ∈ R)) as [Ry|Ry].
    + left. destruct (places_unique _ _ _ _ _ _ _ _ HT Hw P1 P1') as [<- <-]. assert (s' = s) as ->; [|done].
      destruct (Hhb (itemBin P y) (itemBin_lt P y Hnb)) as [_ Hb2]. specialize (Hb2 bin bin' q y P2 P2' Ry ltac:(by rewrite (itemsAt_lookup S bin q j P3), Hy)).
      unfold itemsAt in Hb2. apply list_lookup_fmap_Some in Hb2 as (j2 & Hj2 & Ey2).
      destruct (HB S' bins' (itemBin P y) bin' HS' DS' OB' (itemBin_lt P y Hnb) P2') as (_ & _ & Blt & _).
      destruct (lookup_lt_is_Some_2 S' j2) as [z Hz]; [apply Blt; by eapply elem_of_list_lookup_2|]. rewrite Hz in Ey2. cbn in Ey2. unfold id in Ey2. subst z.
      assert (j2 = j') as -> by (by eapply (NoDup_lookup S')).
      assert (q' = hb (itemBin P y) q) as ->.
      { destruct (binsOk_elem P S' bins' (itemBin P y) 0 OB' (itemBin_lt P y Hnb)) as (b2 & Eb2 & Db2 & _). rewrite P2' in Eb2. injection Eb2 as <-. by eapply (NoDup_lookup bin'). }
      rewrite (Hsh _ (itemBin_lt P y Hnb)) in P4'. apply list_lookup_fmap_Some in P4' as (q2 & Hq2 & Eq2).
      assert (relabels (pCap P) (hb (itemBin P y))) as (hinv & Hinv) by (apply Hhb, itemBin_lt; done).
      assert (forall q s, rShuf rd (itemBin P y) !! s = Some q -> (q < pCap P)%nat) as Hqlt. { intros q0 s0 H0%elem_of_list_lookup_2. rewrite D1 in H0. apply elem_of_seq in H0. lia. }
      assert (q2 = q) as ->. { destruct (Hinv q (Hqlt _ _ P4)) as (_ & _ & I1 & _). destruct (Hinv q2 (Hqlt _ _ Hq2)) as (_ & _ & I2 & _). congruence. }
      eapply (NoDup_lookup (rShuf rd (itemBin P y))); [|done|done]. rewrite D1. apply NoDup_seq.
    + right. split; [by apply (Hnot y S); auto|by apply (Hnot y S'); auto].
  - right. split; [by apply (Hnot y S); auto|by apply (Hnot y' S'); auto].
Qed.
