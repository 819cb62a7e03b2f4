(** Proofs about concurrent insertions in [CuckooHasher]: every turn keeps the invariant. *)
From stdpp Require Import sets.
From Verif Require Import Base CuckooHasher_Model CuckooHasher_Spec CuckooHasher_Proofs
  CuckooHasher_Proofs2 CuckooHasher_Proofs3 HasherConc_Model HasherConc_Spec HasherConc_Proofs.

Section step.
Context (n : N) (all : list (N * list N)).
Local Notation CInv := (CInv n all).
Local Notation pcOK := (pcOK n all).
Local Notation rowAll := (rowAll all).
Local Notation threadOK := (threadOK n all).
Local Notation progOK := (progOK all).
Local Notation pendOK := (pendOK all).

Lemma own_facts g k t : CInv g -> gThreads g !! k = Some t ->
  NoDup (stored (gTable g) ++ owned t) /\ forall i, i ∈ owned t -> i ∈ all.*1 /\ valid n i.
Proof.
  intros I Hk. pose proof (ci_perm _ _ _ I) as P. rewrite (ownedAll_split _ _ _ Hk), app_assoc in P.
  pose proof (ci_nodup _ _ _ I) as ND. rewrite <- P in ND. apply NoDup_app in ND as (ND & _ & _).
  split; [done|]. intros i Hi.
  assert (i ∈ all.*1) as Ha by (rewrite <- P; set_solver).
  split; [done|]. apply elem_of_list_fmap in Ha as (x & -> & Hx).
  pose proof (ci_items _ _ _ I) as F. rewrite Forall_forall in F. apply F, Hx.
Qed.

Lemma owned_app t i : i ∈ hands (tPc t) \/ i ∈ concat (map callIdx (tProg t)) -> i ∈ owned t.
Proof. unfold owned. apply elem_of_app. Qed.

Lemma pendOK_nil c items : pendOK c [] items -> Forall (rowAll c) items.*1.
Proof.
  intros [_ H]. apply Forall_forall. intros i Hi row Hr j Hj.
  destruct (H i row j Hi Hr Hj) as [E|[x Hx]]; [done|by apply elem_of_nil in Hx].
Qed.

Lemma fst_zeros (l : list N) : ((fun i => (i, 0)) <$> l).*1 = l.
Proof. induction l as [|x l IH]; [done|]. rewrite !fmap_cons, IH. done. Qed.

Lemma zeros_lane num (l : list N) : 1 <= num -> (forall i, i ∈ l -> valid n i) ->
  Forall (lane n num) ((fun i => (i, 0)) <$> l).
Proof.
  intros Hn H. apply Forall_fmap, Forall_forall. intros i Hi. split; cbn [fst snd]; [by apply H|lia].
Qed.

(** *** Idle *)
Lemma step_idle g k t c' t' : CInv g -> gThreads g !! k = Some t -> tPc t = Idle ->
  stepThread (gTable g) t = (c', t') -> CInv (mkConfig c' (<[k := t']> (gThreads g))).
Proof.
  intros I Hk Ep. destruct t as [p prog]. cbn [tPc] in Ep. subst p. unfold stepThread. cbn [tPc tProg].
  pose proof (ci_threads _ _ _ I _ _ Hk) as (_ & _ & (os & Eo & Wo & Fo)). cbn [tProg] in Eo.
  pose proof (wf_sized _ _ (ci_wf _ _ _ I)) as Sz. pose proof (sz_num _ _ Sz) as Hn.
  destruct (own_facts g k _ I Hk) as [ND Hall]. unfold owned in ND, Hall. cbn [tPc tProg hands app] in ND, Hall.
  subst prog. destruct os as [|o os]; cbn [map].
  - intros [= <- <-]. apply (CInv_local n all g k (mkThread Idle [])); [done|done|done|].
    by apply (ci_threads _ _ _ I k).
  - apply Forall_cons in Wo as [Wo1 Wo2].
    assert (opsItems (o :: os) = opItems o ++ opsItems os) as Eops by done.
    rewrite Eops in Fo. apply Forall_app in Fo as [Fo1 Fo2].
    assert (progOK (gTable g) (map callOf os)) as Po by (by exists os).
    destruct o as [idx row|ws its]; cbn [callOf].
    + intros [= <- <-]. apply (CInv_local n all g k (mkThread Idle (CInsert idx row :: map callOf os)));
        [done|done|done|].
      split; [|split; [constructor|exact Po]]. cbn [tPc HasherConc_Proofs.pcOK opItems] in *.
      apply Forall_cons in Fo1 as [Fo1 _]. exact Fo1.
    + cbn [wsOk] in Wo1. rewrite fmap_length. rewrite (proj2 (Nat.ltb_ge _ _)) by lia.
      cbn [map callIdx callOf concat] in Hall, ND.
      assert (Forall (fun x => valid n x.1 /\ N.of_nat (length x.2) = hNum (gTable g)) its) as Fi.
      { rewrite Forall_forall in Fo1 |- *. intros x Hx. destruct (Fo1 x Hx) as [Hx' _].
        pose proof (ci_items _ _ _ I) as F. rewrite Forall_forall in F. by apply F. }
      assert (NoDup its.*1) as NDi.
      { apply NoDup_app in ND as (_ & _ & ND). by apply NoDup_app in ND as (ND & _ & _). }
      assert (N.of_nat (length its) <= n) as Hc.
      { rewrite <- (fmap_length fst its). apply count_bound; [done|].
        apply Forall_fmap. eapply Forall_impl; [exact Fi|]. intros x [[? _] _]. done. }
      destruct (batchWrites_spec n (hNum (gTable g)) its (proj1 Hn) 0 []) as (pend & E & H);
        [apply (sz_64 _ _ Sz)|exact Fi|done|exact Hc|].
      cbn [app] in E. rewrite E. intros [= <- <-].
      apply (CInv_local n all g k (mkThread Idle (CBatch ws its.*1 (concat its.*2) :: map callOf os)));
        [done|done| |].
      { unfold owned. cbn [tPc tProg hands map callIdx concat]. by rewrite fst_zeros. }
      split; [|split; [constructor|exact Po]]. cbn [tPc HasherConc_Proofs.pcOK].
      split; [|split; [done|]].
      { apply zeros_lane; [apply Hn|]. intros i Hi. apply Hall. apply elem_of_app. by left. }
      split.
      * intros q x Hq. apply H in Hq as (i & row & j & Hi & Hj & -> & Hx).
        exists i, row, j. rewrite fst_zeros. split; [by apply (elem_of_list_fmap_1 fst _ (i, row))|].
        rewrite Forall_forall in Fo1. split; [by apply (Fo1 (i, row))|done].
      * intros i row j Hi Hr Hj. right. rewrite fst_zeros in Hi.
        apply elem_of_list_fmap in Hi as ([i' row'] & E' & Hi). cbn [fst] in E'. subst i'.
        rewrite Forall_forall in Fo1.
        assert (row' = row) as ->.
        { apply (NoDup_fst_inj all i); [apply I|by apply (Fo1 (i, row'))|done]. }
        destruct (item_at n all g i row I Hr) as [_ Lr].
        destruct (lookup_lt_is_Some_2 row (N.to_nat j)) as [x Hx]; [lia|].
        exists x. apply H. by exists i, row, j.
Qed.

(** *** Check and Write *)
Lemma step_check g k t idx row c' t' : CInv g -> gThreads g !! k = Some t -> tPc t = Check idx row ->
  stepThread (gTable g) t = (c', t') -> CInv (mkConfig c' (<[k := t']> (gThreads g))).
Proof.
  intros I Hk Ep. unfold stepThread. rewrite Ep.
  pose proof (ci_threads _ _ _ I _ _ Hk) as (P & _ & _). rewrite Ep in P. destruct P as [Ha Hc].
  pose proof (wf_sized _ _ (ci_wf _ _ _ I)) as Sz. pose proof (sz_num _ _ Sz) as Hn.
  destruct (item_at n all g idx row I Ha) as [V Lr].
  destruct (cell_flat n (gTable g) idx 0 Sz (proj1 V) ltac:(lia)) as (_ & _ & Em).
  rewrite Hc, N.eqb_refl, Em. cbn [negb].
  destruct (rowWrites_spec (N.to_nat (hNum (gTable g))) row 0 (idx * hNum (gTable g))) as (pend & E & H); [lia|].
  rewrite E. intros [= <- <-]. apply (CInv_pc n all g k t); [done|done|by rewrite Ep| |constructor].
  cbn [HasherConc_Proofs.pcOK]. split; [|split; [done|]].
  { apply Forall_singleton. split; cbn [fst snd]; [done|lia]. }
  split.
  - intros q x Hq. apply H in Hq as (j & Hj & -> & Hx). exists idx, row, (N.of_nat j).
    split; [by constructor|]. split; [done|]. split; [lia|]. split; [done|]. by rewrite Nat2N.id.
  - intros i row' j Hi Hr Hj. right. apply elem_of_list_singleton in Hi. cbn [fst] in Hi. subst i.
    assert (row' = row) as -> by (apply (NoDup_fst_inj all idx); [apply I|done|done]).
    destruct (lookup_lt_is_Some_2 row (N.to_nat j)) as [x Hx]; [lia|].
    exists x. apply H. exists (N.to_nat j). split; [lia|]. split; [lia|done].
Qed.

Lemma stored_valid g i : CInv g -> i ∈ stored (gTable g) -> valid n i.
Proof.
  intros I Hi. assert (i ∈ all.*1) as Ha by (rewrite <- (ci_perm _ _ _ I); set_solver).
  apply elem_of_list_fmap in Ha as (x & -> & Hx).
  pose proof (ci_items _ _ _ I) as F. rewrite Forall_forall in F. apply F, Hx.
Qed.

Lemma step_write g k t m pend items c' t' : CInv g -> gThreads g !! k = Some t -> tPc t = Write m pend items ->
  stepThread (gTable g) t = (c', t') -> CInv (mkConfig c' (<[k := t']> (gThreads g))).
Proof.
  intros I Hk Ep. unfold stepThread. rewrite Ep.
  pose proof (ci_threads _ _ _ I _ _ Hk) as (P & _ & Po). rewrite Ep in P. destruct P as (F & S & Pd).
  pose proof (wf_sized _ _ (ci_wf _ _ _ I)) as Sz. pose proof (sz_num _ _ Sz) as Hn.
  destruct (own_facts g k t I Hk) as [ND Hall].
  destruct pend as [|[q x] pend].
  - intros [= <- <-]. apply pendOK_nil in Pd.
    apply (CInv_pc n all g k t); [done|done| | |]; rewrite ?Ep; destruct items as [|y items]; try done; cbn [enter].
    split; [done|]. split; [done|]. split; [simpl; lia|].
    intros k' i h a _ _ Hx. done.
  - destruct Pd as [P1 P2]. destruct (P1 q x ltac:(by constructor)) as (i & row & j & Hi & Hr & Hj & -> & Hx).
    assert (i ∈ owned t) as Hio by (apply owned_app; left; by rewrite Ep).
    destruct (Hall i Hio) as [_ V].
    destruct (write_cell n (gTable g) i j x Sz (proj1 V) Hj) as (rows' & -> & Sz' & Hc & Ho).
    change (mkHasher (hNum (gTable g)) rows' (hBins (gTable g)) (hStash (gTable g))) with (withRows (gTable g) rows').
    set (c1 := withRows (gTable g) rows') in *. intros [= <- <-].
    assert (forall mine, (forall i', i' ∈ mine -> i' ≠ i /\ i' < n) -> kept (gTable g) c1 mine) as K.
    { intros mine Hm. split; [done|]. split; [|done]. intros i' j' Hi' Hj'.
      destruct (Hm i' Hi'). apply Ho; [done|done|by left]. }
    apply NoDup_app in ND as (ND1 & ND2 & ND3).
    assert (kept (gTable g) c1 (stored (gTable g))) as Ks.
    { apply K. intros i' Hi'. split; [intros ->; by apply (ND2 i)|]. by apply (stored_valid g). }
    apply (CInv_step n all g k t); [done|done| | | | | |].
    + apply WF_rows; [apply I|done|]. intros i' j' Hi' Hj'. by apply Ks.
    + intros rest Hrest. apply K. intros i' Hi'. destruct (Hrest i' Hi') as [Hn1 Hn2].
      split; [|done]. by intros ->.
    + intros i' Hi'. by left.
    + intros i' Hi' R. eapply rowAll_kept; [exact Ks|exact Hi'|done].
    + unfold owned. rewrite Ep. done.
    + split; [|split; [constructor|]].
      * cbn [tPc HasherConc_Proofs.pcOK]. split; [done|]. split; [done|]. split.
        -- intros q y Hq. apply P1. by constructor.
        -- intros i0 row0 j0 Hi0 Hr0 Hj0. change (hNum c1) with (hNum (gTable g)) in *.
           destruct (decide (i0 = i /\ j0 = j)) as [[-> ->]|Hne].
           { left. rewrite Hc, <- Hx. assert (row0 = row) as -> by (apply (NoDup_fst_inj all i); [apply I|done|done]). done. }
           assert (i0 < n) as Hl.
           { apply Hall. apply owned_app. left. by rewrite Ep. }
           assert (i0 ≠ i \/ j0 ≠ j) as Hd by (destruct (N.eq_dec i0 i); [right; intros ->; by apply Hne|by left]).
           rewrite Ho by done. destruct (P2 i0 row0 j0 Hi0 Hr0 Hj0) as [E|[y Hy]]; [by left|right].
           exists y. apply elem_of_cons in Hy as [E|Hy]; [|done]. exfalso. injection E as E _.
           destruct (N.lt_trichotomy i0 i) as [Hlt|[->|Hlt]].
           ++ assert ((i0 + 1) * hNum (gTable g) <= i * hNum (gTable g)) by (apply N.mul_le_mono_r; lia). lia.
           ++ destruct Hd; [done|lia].
           ++ assert ((i + 1) * hNum (gTable g) <= i0 * hNum (gTable g)) by (apply N.mul_le_mono_r; lia). lia.
      * cbn [tProg]. apply (progOK_kept n all (gTable g) c1 (tProg t) (concat (map callIdx (tProg t))));
          [apply Hn| |done|done].
        apply K. intros i' Hi'. split.
        -- intros ->. unfold owned in ND3. rewrite Ep in ND3. apply NoDup_app in ND3 as (_ & ND3 & _).
           by apply (ND3 i).
        -- apply Hall, owned_app. by right.
Qed.

(** *** Fetch *)
Lemma step_fetch g k t m tries items addrs c' t' : CInv g -> gThreads g !! k = Some t ->
  tPc t = Fetch m tries items addrs ->
  stepThread (gTable g) t = (c', t') -> CInv (mkConfig c' (<[k := t']> (gThreads g))).
Proof.
  intros I Hk Ep. unfold stepThread. rewrite Ep.
  pose proof (ci_threads _ _ _ I _ _ Hk) as (P & R & _). rewrite Ep in P, R. destruct P as (F & S & L & A).
  pose proof (wf_sized _ _ (ci_wf _ _ _ I)) as Sz. pose proof (sz_num _ _ Sz) as Hn. pose proof (sz_bins _ _ Sz) as Hb.
  destruct (items !! length addrs) as [[idx h]|] eqn:Ei.
  - rewrite Forall_forall in F. destruct (F _ (elem_of_list_lookup_2 _ _ _ Ei)) as [V Hh]. cbn [fst snd] in *.
    rewrite <- Forall_forall in F.
    destruct (cell_flat n (gTable g) idx h Sz (proj1 V) Hh) as (_ & [x Hx] & _).
    unfold addrOf. rewrite Hx. destruct (N.eqb_spec (N.of_nat (length (hBins (gTable g)))) 0); [lia|].
    intros [= <- <-]. apply (CInv_pc n all g k t); [done|done|by rewrite Ep| |done].
    split; [done|]. split; [done|]. split; [rewrite app_length; simpl; apply lookup_lt_Some in Ei; lia|].
    intros q i' h' a _ Hi' Ha. destruct (decide (q = length addrs)) as [->|Hne].
    + rewrite list_lookup_middle in Ha by done. injection Ha as <-. rewrite Ei in Hi'. injection Hi' as <- <-.
      by exists x.
    + apply (A q i' h' a); [lia|done|]. apply lookup_app_Some in Ha as [Ha|[Hq Ha]]; [done|].
      destruct (q - length addrs)%nat eqn:Eq; [lia|done].
  - intros [= <- <-]. apply lookup_ge_None in Ei.
    apply (CInv_pc n all g k t); [done|done| | |].
    + rewrite Ep. cbn [hands length]. rewrite drop_0, app_nil_r. done.
    + split; [done|]. split; [done|]. split; [lia|]. split; [simpl; lia|]. split; [constructor|done].
    + cbn [settled hands length]. rewrite drop_0, app_nil_r. done.
Qed.

(** *** Exchanges *)
Lemma word_facts num w : num <= 256 -> word n num w -> binEmpty w = false ->
  valid n (binIdx w) /\ binHash w < num.
Proof.
  intros Hn [->|G] E; [by rewrite binEmpty_minus1 in E|].
  by destruct (goodWord_facts n num w Hn G) as (_ & V & Hh & _).
Qed.

Lemma afterRound_ok c m tries items olds : 1 <= hNum c <= 256 -> single m items ->
  length olds = length items -> Forall (word n (hNum c)) olds ->
  hands (afterRound (hNum c) m tries items olds) = occ olds /\
  settled (afterRound (hNum c) m tries items olds) = occ olds /\
  pcOK c (afterRound (hNum c) m tries items olds).
Proof.
  intros Hn S L W. unfold afterRound. destruct m.
  - pose proof (S eq_refl) as S1. destruct olds as [|old [|]]; try (simpl in *; lia).
    apply Forall_cons in W as [W _]. rewrite occ_cons, occ_nil, app_nil_r.
    destruct (binEmpty old) eqn:E.
    + apply binEmpty_true in E as ->. by rewrite occW_empty.
    + rewrite (occW_full _ E). destruct (word_facts _ _ (proj2 Hn) W E) as [V Hh].
      destruct tries as [|tries]; (split; [done|]); (split; [done|]); cbn [HasherConc_Proofs.pcOK].
      * split; [by apply Forall_singleton|]. split; [simpl; lia|]. intros q Hq. simpl in Hq. lia.
      * split; [apply Forall_singleton; split; cbn [fst snd]; [done|apply N.mod_lt; lia]|].
        split; [done|]. split; [simpl; lia|]. intros q i h a _ _ Ha. done.
  - destruct (compact_spec (hNum c) items.*1 items.*2 olds) as (l & Ec & L1 & L2 & T).
    { by rewrite !fmap_length. } { rewrite fmap_length. lia. }
    rewrite <- L, Ec. cbv zeta. unfold zipped in T. rewrite T.
    assert ((map (dec (hNum c)) (List.filter used olds)).*1 = occ olds) as Eo.
    { rewrite occ_filter. clear. induction olds as [|w olds IH]; [done|]. cbn [List.filter].
      destruct (used w); [|exact IH]. cbn [map]. rewrite fmap_cons. cbn [fst dec]. by rewrite IH. }
    assert (Forall (lane n (hNum c)) (map (dec (hNum c)) (List.filter used olds))) as Fl.
    { apply Forall_forall. intros y Hy. apply elem_of_list_In, in_map_iff in Hy as (w & <- & Hw).
      apply filter_In in Hw as [Hw Hu]. rewrite Forall_forall in W.
      destruct (word_facts (hNum c) w) as [V Hh]; [lia|apply W; by apply elem_of_list_In| |].
      - unfold used in Hu. by apply negb_true_iff in Hu.
      - split; cbn [fst snd dec]; [done|]. apply N.mod_lt. lia. }
    destruct (map (dec (hNum c)) (List.filter used olds)) as [|y items'].
    { rewrite <- Eo. done. }
    destruct tries as [|[|tries]]; cbn [hands settled]; (split; [exact Eo|]); (split; [exact Eo|]);
      cbn [HasherConc_Proofs.pcOK]; (split; [exact Fl|]).
    + split; [simpl; lia|]. intros q Hq. simpl in Hq. lia.
    + split; [simpl; lia|]. intros q Hq. simpl in Hq. lia.
    + split; [done|]. split; [simpl; lia|]. intros q i h a _ _ Ha. done.
Qed.

Lemma step_exch g k t m tries items addrs olds c' t' : CInv g -> gThreads g !! k = Some t ->
  tPc t = Exch m tries items addrs olds ->
  stepThread (gTable g) t = (c', t') -> CInv (mkConfig c' (<[k := t']> (gThreads g))).
Proof.
  intros I Hk Ep. unfold stepThread. rewrite Ep.
  pose proof (ci_threads _ _ _ I _ _ Hk) as (P & R & O). rewrite Ep in P, R. destruct P as (F & S & L & Lo & W & A).
  pose proof (wf_sized _ _ (ci_wf _ _ _ I)) as Sz. pose proof (sz_num _ _ Sz) as Hn. pose proof (sz_bins _ _ Sz) as Hb.
  destruct (items !! length olds) as [[idx h]|] eqn:Ei.
  - destruct (lookup_lt_is_Some_2 addrs (length olds)) as [a Ha]; [rewrite L; by eapply lookup_lt_Some|].
    rewrite Ha. destruct (A _ _ _ _ (le_n _) Ei Ha) as (x & Hx & ->).
    rewrite Forall_forall in F. destruct (F _ (elem_of_list_lookup_2 _ _ _ Ei)) as [V Hh]. cbn [fst snd] in *.
    rewrite <- Forall_forall in F.
    destruct (put_spec n (gTable g) idx h (ci_wf _ _ _ I) V Hh) as (c1 & old & E & W1 & Sh & Est & P1 & Wd).
    unfold put in E. rewrite Hx in E.
    destruct (hBins (gTable g) !! N.to_nat (x mod N.of_nat (length (hBins (gTable g))))) as [w|] eqn:Ew; [|done].
    rewrite (proj2 (readN_Some _ _ _) Ew). injection E as E ->.
    rewrite E. intros [= <- <-].
    assert (forall i j, cell c1 i j = cell (gTable g) i j) as Ec by (intros; by apply cell_shape; apply Sh).
    assert (forall mine, kept (gTable g) c1 mine) as K.
    { intros mine. split; [destruct Sh as (? & ? & ?); unfold sizes; by rewrite Est|]. split; [done|]. by rewrite Est. }
    assert (rowAll (gTable g) idx) as Rx.
    { rewrite Forall_forall in R. apply R. cbn [settled hands]. rewrite (drop_S _ _ _ Ei). by constructor. }
    assert (forall i, rowAll (gTable g) i -> rowAll c1 i) as Rk.
    { intros i Hi. eapply (rowAll_kept all _ c1 i [i]); [apply K|by constructor|done]. }
    assert (hands (tPc t) = idx :: (drop (Datatypes.S (length olds)) items).*1 ++ occ olds) as Eh.
    { rewrite Ep. cbn [hands]. by rewrite (drop_S _ _ _ Ei). }
    assert (hands (Exch m tries items addrs (olds ++ [old])) =
      (drop (Datatypes.S (length olds)) items).*1 ++ occ olds ++ occW old) as Eh'.
    { cbn [hands]. rewrite app_length, occ_app, occ_cons, occ_nil, app_nil_r. by rewrite Nat.add_1_r. }
    apply (CInv_step n all g k t); [done|done|done|intros; apply K| | | |].
    + intros i Hi. assert (i ∈ idx :: stored (gTable g)) as Hi' by (rewrite <- P1; set_solver).
      apply elem_of_cons in Hi' as [->|Hi']; [right|by left]. rewrite Ep. cbn [settled hands].
      rewrite (drop_S _ _ _ Ei). by constructor.
    + by auto.
    + unfold owned. rewrite Eh. cbn [tPc tProg]. rewrite Eh'. permN.
    + split; [|split].
      * cbn [tPc HasherConc_Proofs.pcOK]. rewrite (proj1 Sh). split; [done|]. split; [done|]. split; [done|].
        rewrite app_length. cbn [length]. split; [apply lookup_lt_Some in Ei; lia|].
        split; [apply Forall_app; split; [done|by apply Forall_singleton]|].
        intros q i h' a Hq Hi' Ha'. rewrite Ec. destruct Sh as (_ & _ & ->). apply (A q i h' a); [lia|done|done].
      * cbn [tPc settled]. rewrite Eh'. apply Forall_forall. intros i Hi. apply Rk.
        assert (i ∈ hands (tPc t) \/ i ∈ occW old) as [Hi'|Hi'] by (rewrite Eh; set_solver).
        -- rewrite Forall_forall in R. apply R. rewrite Ep in Hi'. done.
        -- assert (i ∈ idx :: stored (gTable g)) as Hi2 by (rewrite <- P1; set_solver).
           apply elem_of_cons in Hi2 as [->|Hi2]; [done|]. pose proof (ci_rows _ _ _ I) as Rs.
           rewrite Forall_forall in Rs. by apply Rs.
      * cbn [tProg]. apply (progOK_kept n all (gTable g) c1 _ (concat (map callIdx (tProg t)))); [apply Hn|apply K|done|done].
  - assert (length olds = length items) as Lq by (apply lookup_ge_None in Ei; lia).
    destruct (N.eqb_spec (hNum (gTable g)) 0); [lia|]. intros [= <- <-].
    destruct (afterRound_ok (gTable g) m tries items olds) as (E1 & E2 & E3); [done|done|done|done|].
    cbn [settled hands] in R. rewrite drop_ge in R by lia. simpl in R.
    apply (CInv_pc n all g k t); [done|done| |done|by rewrite E2].
    rewrite E1, Ep. cbn [hands]. rewrite drop_ge by lia. done.
Qed.

(** *** Stash *)
Lemma stash_exchange c j old idx h : WF n c -> hStash c !! j = Some old ->
  (forall q, (q < j)%nat -> hStash c !! q ≠ Some minus1) -> valid n idx -> h < hNum c ->
  WF n (mkHasher (hNum c) (hRows c) (hBins c) (<[j := binVal idx h]> (hStash c))) /\ word n (hNum c) old.
Proof.
  intros W Hj Hq V Hh. destruct (wf_stash _ _ W) as (ws & q & E & F).
  assert (goodWord n (hNum c) (binVal idx h)) as G by (by apply goodWord_val).
  assert (j <= length ws)%nat as Lj.
  { destruct (Nat.le_gt_cases j (length ws)) as [?|Hl]; [done|]. exfalso.
    pose proof (lookup_lt_Some _ _ _ Hj) as Ll. rewrite E, app_length, replicate_length in Ll.
    apply (Hq (length ws) Hl). rewrite E, lookup_app_r, Nat.sub_diag by lia.
    apply lookup_replicate. split; [done|lia]. }
  split.
  - constructor; [by destruct W as [[A B C D] _ _]; constructor|exact (wf_bins _ _ W)|].
    cbn [hStash hNum]. rewrite E in Hj |- *. destruct (decide (j = length ws)) as [->|Hne].
    + rewrite insert_app_r_alt, Nat.sub_diag by lia. destruct q as [|q].
      { rewrite app_nil_r in Hj. apply lookup_lt_Some in Hj. lia. }
      exists (ws ++ [binVal idx h]), q. rewrite <- app_assoc. split; [done|].
      apply Forall_app. split; [done|by apply Forall_singleton].
    + rewrite insert_app_l by lia. exists (<[j := binVal idx h]> ws), q. split; [done|].
      by apply Forall_insert.
  - rewrite E in Hj. apply lookup_app_Some in Hj as [Hj|[_ Hj]].
    + right. rewrite Forall_forall in F. apply F. by eapply elem_of_list_lookup_2.
    + left. by apply lookup_replicate in Hj as [-> _].
Qed.

Lemma step_stash g k t m items j c' t' : CInv g -> gThreads g !! k = Some t -> tPc t = Stash m items j ->
  stepThread (gTable g) t = (c', t') -> CInv (mkConfig c' (<[k := t']> (gThreads g))).
Proof.
  intros I Hk Ep. unfold stepThread. rewrite Ep.
  pose proof (ci_threads _ _ _ I _ _ Hk) as (P & R & O). rewrite Ep in P, R. destruct P as (F & L & A).
  pose proof (wf_sized _ _ (ci_wf _ _ _ I)) as Sz. pose proof (sz_num _ _ Sz) as Hn.
  destruct items as [|[idx h] items].
  - intros [= <- <-]. apply (CInv_pc n all g k t); [done|done|by rewrite Ep|done|constructor].
  - destruct (readN (hStash (gTable g)) j) as [old|] eqn:Er.
    + apply readN_Some in Er. pose proof F as F0. apply Forall_cons in F as [[V Hh] F]. cbn [fst snd] in V, Hh.
      destruct (stash_exchange (gTable g) (N.to_nat j) old idx h) as [W1 Wd]; [apply I|done|done|done|done|].
      set (c1 := mkHasher (hNum (gTable g)) _ _ _) in *. intros [= <- <-].
      assert (binEmpty (binVal idx h) = false) as Ev by (apply binVal_not_empty; [apply V|lia]).
      assert (forall mine, kept (gTable g) c1 mine) as K.
      { intros mine. split; [|split; [done|]].
        - unfold sizes. cbn [c1 hNum hBins hStash]. by rewrite insert_length.
        - intros q Hq. cbn [c1 hStash] in Hq. destruct (decide (q = N.to_nat j)) as [->|Hne].
          + rewrite list_lookup_insert in Hq by (by eapply lookup_lt_Some). injection Hq as Hq.
            by rewrite Hq, binEmpty_minus1 in Ev.
          + by rewrite list_lookup_insert_ne in Hq by done. }
      assert (forall i, rowAll (gTable g) i -> rowAll c1 i) as Rk.
      { intros i Hi. eapply (rowAll_kept all _ c1 i [i]); [apply K|by constructor|done]. }
      assert (Permutation (stored c1 ++ occW old) (idx :: stored (gTable g))) as P1.
      { pose proof (occ_insert (hStash (gTable g)) (N.to_nat j) (binVal idx h) old Er) as P.
        rewrite (occW_full _ Ev) in P.
        rewrite binIdx_val in P by (destruct V; lia).
        unfold stored. cbn [c1 hBins hStash]. permN. }
      set (items' := if binEmpty old then items else (binIdx old, binHash old) :: items).
      assert (items'.*1 = occW old ++ items.*1) as Ei.
      { unfold items'. destruct (binEmpty old) eqn:Eo.
        - by apply binEmpty_true in Eo as ->.
        - by rewrite (occW_full _ Eo). }
      apply (CInv_step n all g k t); [done|done|done|intros; apply K| | | |].
      * intros i Hi. assert (i ∈ idx :: stored (gTable g)) as Hi' by (rewrite <- P1; set_solver).
        apply elem_of_cons in Hi' as [->|Hi']; [right|by left]. rewrite Ep. by constructor.
      * by auto.
      * unfold owned. rewrite Ep. cbn [tPc tProg hands]. rewrite Ei, fmap_cons. cbn [fst]. permN.
      * split; [|split].
        -- cbn [tPc HasherConc_Proofs.pcOK]. split; [|split].
           ++ change (hNum c1) with (hNum (gTable g)). unfold items'. destruct (binEmpty old) eqn:Eo; [done|].
              constructor; [|done]. exact (word_facts _ _ (proj2 Hn) Wd Eo).
           ++ cbn [c1 hStash]. rewrite insert_length. apply lookup_lt_Some in Er. lia.
           ++ intros q Hq Hm. destruct (decide (q = N.to_nat j)) as [->|Hne].
              ** cbn [c1 hStash] in Hm. rewrite list_lookup_insert in Hm by (by eapply lookup_lt_Some).
                 injection Hm as Hm. by rewrite Hm, binEmpty_minus1 in Ev.
              ** apply (A q); [lia|]. by apply (K []).
        -- cbn [tPc settled hands] in *. rewrite Ei. apply Forall_forall. intros i Hi. apply Rk.
           rewrite Forall_forall in R. pose proof (ci_rows _ _ _ I) as Rs. rewrite Forall_forall in Rs.
           apply elem_of_app in Hi as [Hi|Hi]; [|apply R; by constructor].
           assert (i ∈ idx :: stored (gTable g)) as Hi2 by (rewrite <- P1; set_solver).
           apply elem_of_cons in Hi2 as [->|Hi2]; [apply R; by constructor|by apply Rs].
        -- cbn [tProg]. apply (progOK_kept n all (gTable g) c1 _ (concat (map callIdx (tProg t)))); [apply Hn|apply K|done|done].
    + assert (length (hStash (gTable g)) <= N.to_nat j)%nat as Lj.
      { destruct (Nat.le_gt_cases (length (hStash (gTable g))) (N.to_nat j)) as [?|Hl]; [done|].
        destruct (lookup_lt_is_Some_2 _ _ Hl) as [w Hw]. by rewrite (proj2 (readN_Some _ _ _) Hw) in Er. }
      assert (minus1 ∉ hStash (gTable g)) as Hf.
      { intros Hi. apply elem_of_list_lookup in Hi as [q Hq]. apply (A q); [|done]. apply lookup_lt_Some in Hq. lia. }
      intros [= <- <-]. apply (CInv_pc n all g k t); [done|done| | |]; rewrite ?Ep; destruct m;
        try done; try exact Hf; constructor.
Qed.

Lemma step_CInv g k : CInv g -> CInv (stepAt g k).
Proof.
  intros I. unfold stepAt. destruct (gThreads g !! k) as [t|] eqn:Hk; [|done].
  destruct (stepThread (gTable g) t) as [c' t'] eqn:E.
  destruct (tPc t) as [| | | | | |l|l] eqn:Ep.
  - by eapply step_idle.
  - by eapply step_check.
  - by eapply step_write.
  - by eapply step_fetch.
  - by eapply step_exch.
  - by eapply step_stash.
  - unfold stepThread in E. rewrite Ep in E. injection E as <- <-.
    apply (CInv_local n all g k t); [done|done|done|]. by apply (ci_threads _ _ _ I k).
  - unfold stepThread in E. rewrite Ep in E. injection E as <- <-.
    apply (CInv_local n all g k t); [done|done|done|]. by apply (ci_threads _ _ _ I k).
Qed.

Lemma run_CInv sched : forall g, CInv g -> CInv (runSched g sched).
Proof.
  induction sched as [|k sched IH]; intros g I; [done|]. cbn [runSched foldl]. apply IH. by apply step_CInv.
Qed.

End step.
