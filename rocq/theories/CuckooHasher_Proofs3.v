(** Proofs about the model of [CuckooHasher]: histories and lookups. *)
From stdpp Require Import sets.
From Verif Require Import Base CuckooHasher_Model CuckooHasher_Spec CuckooHasher_Proofs
  CuckooHasher_Proofs2.

(** ** Rows *)

Definition hasRow (c : Hasher) (i : N) (row : list N) : Prop :=
  forall j, j < hNum c -> cell c i j = row !! N.to_nat j.

Definition withRows (c : Hasher) (rows : list N) : Hasher :=
  mkHasher (hNum c) rows (hBins c) (hStash c).

Lemma setRow_spec n c i src sbase row : Sized n c -> i < n -> N.of_nat (length row) = hNum c ->
  sbase + hNum c <= N.of_nat (length src) ->
  (forall j, (j < N.to_nat (hNum c))%nat -> src !! (N.to_nat sbase + j)%nat = row !! j) ->
  exists rows', copyRow (N.to_nat (hNum c)) src sbase (hRows c) ((i * hNum c) mod two64) = Some rows' /\
    Sized n (withRows c rows') /\ hasRow (withRows c rows') i row /\
    (forall i' j, i' < n -> i' ≠ i -> j < hNum c -> cell (withRows c rows') i' j = cell c i' j).
Proof.
  intros Sz Hi Lr Hs Hsrc. pose proof Sz as [R B [N1 N2] Sb].
  destruct (cell_flat n c i 0 Sz Hi ltac:(lia)) as (_ & _ & Em). rewrite Em.
  assert ((i + 1) * hNum c <= n * hNum c) as Lm by (apply N.mul_le_mono_r; lia).
  destruct (copyRow_spec (N.to_nat (hNum c)) src sbase (hRows c) (i * hNum c)) as (rows' & E & L & H1 & H2);
    [lia|lia|].
  exists rows'. split; [done|].
  assert (Sized n (withRows c rows')) as Sz'.
  { constructor; cbn [withRows hRows hNum hBins]; try done. by rewrite L. }
  split; [done|]. split.
  - intros j Hj. cbn [withRows hNum] in Hj.
    rewrite (proj1 (cell_flat n (withRows c rows') i j Sz' Hi Hj)). cbn [withRows hRows hNum].
    rewrite H1 by lia. by rewrite Hsrc by lia.
  - intros i' j Hi' Hne Hj.
    rewrite (proj1 (cell_flat n (withRows c rows') i' j Sz' Hi' Hj)), (proj1 (cell_flat n c i' j Sz Hi' Hj)).
    cbn [withRows hRows hNum]. apply H2.
    destruct (N.lt_ge_cases i' i) as [Hlt|Hge].
    + left. assert ((i' + 1) * hNum c <= i * hNum c) by (apply N.mul_le_mono_r; lia). lia.
    + right. assert ((i + 1) * hNum c <= i' * hNum c) by (apply N.mul_le_mono_r; lia). lia.
Qed.

(** ** Invariant of histories *)

Record Inv (n : N) (c : Hasher) (items : list (N * list N)) : Prop := {
  inv_wf : WF n c;
  inv_nodup : NoDup items.*1;
  inv_items : Forall (fun x => valid n x.1 /\ N.of_nat (length x.2) = hNum c /\ hasRow c x.1 x.2) items;
  inv_stored : Permutation (stored c) items.*1 }.

(** Rows that were never written. *)
Definition Fresh (n : N) (c : Hasher) (items : list (N * list N)) : Prop :=
  forall i, i < n -> i ∉ items.*1 -> cell c i 0 = Some minus1.

Lemma occ_elem v i : i ∈ occ v <-> exists a w, v !! a = Some w /\ binEmpty w = false /\ binIdx w = i.
Proof.
  induction v as [|w v IH].
  - split; [intros H; by apply elem_of_nil in H|]. by intros (a & w & E & _).
  - rewrite occ_cons, elem_of_app, IH. split.
    + intros [H|(a & w' & Ha & R)]; [|by exists (S a), w'].
      destruct (binEmpty w) eqn:Ew.
      * apply binEmpty_true in Ew as ->. by apply elem_of_nil in H.
      * rewrite (occW_full w Ew) in H. apply elem_of_list_singleton in H as ->. by exists 0%nat, w.
    + intros ([|a] & w' & Ha & Ew & Ei).
      * injection Ha as ->. left. rewrite (occW_full _ Ew). by apply elem_of_list_singleton.
      * right. by exists a, w'.
Qed.

(** Changing rows of indices that are not stored keeps the table well-formed. *)
Lemma WF_rows n c rows : WF n c -> Sized n (withRows c rows) ->
  (forall i j, i ∈ stored c -> j < hNum c -> cell (withRows c rows) i j = cell c i j) ->
  WF n (withRows c rows).
Proof.
  intros W Sz H. constructor; [done| |exact (wf_stash _ _ W)].
  intros a w Hw. cbn [withRows hBins hNum] in *.
  destruct (wf_bins _ _ W a w Hw) as [->|[G (x & Hx & Ha)]]; [by left|right].
  split; [done|]. exists x. split; [|done].
  destruct (goodWord_facts n (hNum c) w (proj2 (sz_num _ _ (wf_sized _ _ W))) G) as (E & V & Hh & _).
  rewrite H; [done| |done]. unfold stored. apply elem_of_app. left. apply occ_elem. by exists a, w.
Qed.

Lemma hasRow_ext c c' i row : hNum c' = hNum c -> (forall j, j < hNum c -> cell c' i j = cell c i j) ->
  hasRow c i row -> hasRow c' i row.
Proof. intros E H Hr j Hj. rewrite E in Hj. rewrite H by done. by apply Hr. Qed.

(** Add one row to a table with further rows written but not yet stored. *)
Record Pre (n : N) (c : Hasher) (items hand : list (N * list N)) : Prop := {
  pre_wf : WF n c;
  pre_nodup : NoDup (items ++ hand).*1;
  pre_items : Forall (fun x => valid n x.1 /\ N.of_nat (length x.2) = hNum c /\ hasRow c x.1 x.2) (items ++ hand);
  pre_stored : Permutation (stored c) items.*1 }.

Lemma Pre_Inv n c items : Pre n c items [] <-> Inv n c items.
Proof.
  split; intros [A B C D]; constructor; rewrite ?app_nil_r in *; done.
Qed.

Lemma Pre_row n c items hand i row src sbase : Pre n c items hand -> valid n i ->
  i ∉ (items ++ hand).*1 -> N.of_nat (length row) = hNum c ->
  sbase + hNum c <= N.of_nat (length src) ->
  (forall j, (j < N.to_nat (hNum c))%nat -> src !! (N.to_nat sbase + j)%nat = row !! j) ->
  exists rows', copyRow (N.to_nat (hNum c)) src sbase (hRows c) ((i * hNum c) mod two64) = Some rows' /\
    Pre n (withRows c rows') items (hand ++ [(i, row)]) /\
    (forall i' j, i' < n -> i' ≠ i -> j < hNum c -> cell (withRows c rows') i' j = cell c i' j).
Proof.
  intros [W ND F P] V Hni Lr Hs Hsrc.
  destruct (setRow_spec n c i src sbase row (wf_sized _ _ W) (proj1 V) Lr Hs Hsrc) as (rows' & E & Sz & Hr & Ho).
  exists rows'. split; [done|]. split; [|done].
  assert (forall i', i' ∈ (items ++ hand).*1 -> i' < n /\ i' ≠ i) as Hin.
  { intros i' Hi'. split; [|by intros ->].
    apply elem_of_list_fmap in Hi' as ([i2 row2] & -> & Hi'). rewrite Forall_forall in F.
    apply (F _ Hi'). }
  constructor.
  - apply WF_rows; [done|done|]. intros i' j Hi' Hj. destruct (Hin i') as [A B].
    + rewrite P in Hi'. rewrite fmap_app. by apply elem_of_app; left.
    + by apply Ho.
  - rewrite app_assoc, fmap_app. apply NoDup_app. split; [done|]. split; [|apply NoDup_singleton].
    intros x Hx Hx'. apply elem_of_list_singleton in Hx' as ->. done.
  - rewrite app_assoc. apply Forall_app. split.
    + apply Forall_forall. intros x Hx. rewrite Forall_forall in F. destruct (F x Hx) as (A & B & C).
      split; [done|]. split; [done|].
      destruct (Hin x.1) as [A1 A2]; [by apply elem_of_list_fmap_1|].
      eapply (hasRow_ext c); [done| |done]. intros j Hj. by apply Ho.
    + apply Forall_singleton. cbn [fst snd]. done.
  - exact P.
Qed.

Lemma setRows_spec n its : forall c items hand k hashs pre, Pre n c items hand ->
  hashs = pre ++ concat its.*2 -> N.of_nat (length pre) = k * hNum c ->
  k * hNum c + N.of_nat (length its) * hNum c <= n * hNum c ->
  NoDup (items ++ hand ++ its).*1 ->
  Forall (fun x => valid n x.1 /\ N.of_nat (length x.2) = hNum c) its ->
  exists rows', setRows (hNum c) its.*1 hashs k (hRows c) = Some rows' /\
    Pre n (withRows c rows') items (hand ++ its) /\
    (forall i j, i < n -> i ∉ its.*1 -> j < hNum c -> cell (withRows c rows') i j = cell c i j).
Proof.
  induction its as [|[i row] its IH]; intros c items hand k hashs pre Pr Eh Lp Hk ND F.
  - exists (hRows c). rewrite app_nil_r. destruct c. done.
  - apply Forall_cons in F as [[V Lr] F]. cbn [fst snd] in V, Lr. rewrite fmap_cons. cbn [fst setRows].
    pose proof (wf_sized _ _ (pre_wf _ _ _ _ Pr)) as Sz. pose proof Sz as [R B [N1 N2] Sb].
    assert ((k * hNum c) mod two64 = k * hNum c) as ->.
    { apply N.mod_small. unfold two64. simpl length in Hk. lia. }
    assert (i ∉ (items ++ hand).*1) as Hni.
    { rewrite app_assoc, fmap_app in ND. apply NoDup_app in ND as (_ & ND & _).
      intros Hi. apply (ND i Hi). rewrite fmap_cons. by constructor. }
    destruct (Pre_row n c items hand i row hashs (k * hNum c) Pr V Hni Lr) as (rows1 & -> & Pr1 & Ho).
    { rewrite Eh, app_length, fmap_cons. simpl. rewrite app_length. lia. }
    { intros j Hj. rewrite Eh, lookup_app_r by lia.
      replace (N.to_nat (k * hNum c) + j - length pre)%nat with j by lia.
      rewrite fmap_cons. simpl. by rewrite lookup_app_l by lia. }
    destruct (IH (withRows c rows1) items (hand ++ [(i, row)]) (k + 1) hashs (pre ++ row) Pr1) as (rows' & E & Pr' & Ho').
    + rewrite Eh, fmap_cons. simpl. by rewrite <- app_assoc.
    + cbn [withRows hNum]. rewrite app_length. lia.
    + cbn [withRows hNum]. simpl length in Hk. lia.
    + rewrite <- app_assoc. done.
    + done.
    + cbn [withRows hNum hRows] in E. rewrite E. exists rows'. split; [done|].
      split; [by rewrite <- app_assoc in Pr'|].
      intros i' j Hi' Hni' Hj. apply not_elem_of_cons in Hni' as [Hne Hni'].
      change (withRows c rows') with (withRows (withRows c rows1) rows').
      rewrite Ho' by done. by apply Ho.
Qed.

Lemma count_bound (l : list N) n : NoDup l -> Forall (fun i => i < n) l -> N.of_nat (length l) <= n.
Proof.
  intros ND F.
  assert (length l <= length (N.of_nat <$> seq 0 (N.to_nat n)))%nat as H.
  { apply NoDup_incl_length; [by apply NoDup_ListNoDup|].
    intros x Hx. apply elem_of_list_In in Hx. apply elem_of_list_In, elem_of_list_fmap.
    rewrite Forall_forall in F. specialize (F x Hx).
    exists (N.to_nat x). split; [lia|]. apply elem_of_seq. lia. }
  rewrite fmap_length, seq_length in H. lia.
Qed.

Lemma Inv_shape n c c' items : WF n c' -> shape c c' -> Permutation (stored c') items.*1 ->
  NoDup items.*1 ->
  Forall (fun x => valid n x.1 /\ N.of_nat (length x.2) = hNum c /\ hasRow c x.1 x.2) items ->
  Inv n c' items.
Proof.
  intros W (E1 & E2 & E3) P ND F. constructor; try done.
  eapply Forall_impl; [exact F|]. intros x (A & B & C). rewrite E1. split; [done|]. split; [done|].
  eapply hasRow_ext; [done| |done]. intros j _. by apply cell_shape.
Qed.

(** The result of [insert]. *)
Lemma insert_spec n c items i row : Inv n c items -> Fresh n c items -> valid n i -> i ∉ items.*1 ->
  N.of_nat (length row) = hNum c ->
  (exists c', insert c i row = Done c' /\ Inv n c' (items ++ [(i, row)]) /\ Fresh n c' (items ++ [(i, row)]) /\
     hNum c' = hNum c /\ length (hBins c') = length (hBins c) /\ length (hStash c') = length (hStash c)) \/
  (insert c i row = UB /\ stashFull c).
Proof.
  intros I Fr V Hni Lr. unfold insert.
  rewrite (Fr i (proj1 V) Hni). rewrite N.eqb_refl. cbn [negb].
  pose proof (wf_sized _ _ (inv_wf _ _ _ I)) as Sz. pose proof (sz_num _ _ Sz) as Hn.
  destruct (Pre_row n c items [] i row row 0) as (rows' & -> & Pr & Ho).
  { by apply Pre_Inv. } { done. } { by rewrite app_nil_r. } { done. } { lia. } { done. }
  destruct Pr as [W ND F P]. change (mkHasher (hNum c) rows' (hBins c) (hStash c)) with (withRows c rows').
  destruct (insertHelper_spec n 100 (withRows c rows') i 0 W V ltac:(simpl; lia))
    as [(c' & E & W' & Sh & Ls & P')|[E Hf]]; [|by right].
  left. exists c'. split; [done|]. split; [|split; [|split_and!; try apply Sh; done]].
  - eapply Inv_shape; [done|exact Sh| |done|done].
    rewrite P', P, fmap_app. simpl. permN.
  - intros i' Hi' Hni'. rewrite fmap_app in Hni'. apply not_elem_of_app in Hni' as [Hn1 Hn2].
    rewrite (cell_shape (withRows c rows') c') by apply Sh.
    rewrite Ho; [by apply Fr|done| |lia]. intros ->. apply Hn2. by constructor.
Qed.

Lemma zip_zeros {A} (l : list A) : (zip l (replicate (length l) 0)).*1 = l.
Proof. induction l as [|x l IH]; [done|]. simpl. by f_equal. Qed.

(** The part that [insertBatch] shares with [SimpleCuckoo]. *)
Lemma batch_common n c items its : Inv n c items ->
  NoDup (items ++ its).*1 -> Forall (fun x => valid n x.1 /\ N.of_nat (length x.2) = hNum c) its ->
  exists rows' c' idxs' his' r,
    setRows (hNum c) its.*1 (concat its.*2) 0 (hRows c) = Some rows' /\
    batchLoop 100 (withRows c rows') its.*1 (replicate (length its) 0) (length its) = Some (c', idxs', his', r) /\
    WF n c' /\ shape (withRows c rows') c' /\ hStash c' = hStash c /\
    length idxs' = length its /\ length his' = length its /\ (r <= length its)%nat /\
    Forall (lane n (hNum c)) (take r (zip idxs' his')) /\
    Permutation (stored c' ++ (take r (zip idxs' his')).*1) (items ++ its).*1 /\
    Forall (fun x => valid n x.1 /\ N.of_nat (length x.2) = hNum c /\ hasRow c' x.1 x.2) (items ++ its) /\
    (forall i j, i < n -> i ∉ its.*1 -> j < hNum c -> cell c' i j = cell c i j).
Proof.
  intros I ND F. pose proof (wf_sized _ _ (inv_wf _ _ _ I)) as Sz. pose proof (sz_num _ _ Sz) as Hn.
  assert (N.of_nat (length its) <= n) as Hc.
  { rewrite <- (fmap_length fst its). apply count_bound.
    - rewrite fmap_app in ND. by apply NoDup_app in ND as (_ & _ & ?).
    - apply Forall_fmap. eapply Forall_impl; [exact F|]. intros x [[? _] _]. done. }
  destruct (setRows_spec n its c items [] 0 (concat its.*2) []) as (rows' & E & Pr & Ho).
  { by apply Pre_Inv. } { done. } { done. }
  { rewrite N.mul_0_l, N.add_0_l. by apply N.mul_le_mono_r. } { done. } { done. }
  destruct Pr as [W ND' F' P]. cbn [app] in *.
  destruct (batchLoop_spec n 100 (withRows c rows') its.*1 (replicate (length its) 0) (length its) W)
    as (c' & idxs' & his' & r & El & W' & Sh & Est & L1 & L2 & Hr & Fl & P').
  { by rewrite fmap_length, replicate_length. }
  { by rewrite fmap_length. }
  { apply Forall_take. rewrite <- (fmap_length fst its). apply Forall_forall. intros [a b] Hab.
    apply elem_of_list_lookup in Hab as [k Hab].
    apply lookup_zip_with_Some in Hab as (a' & b' & E2 & Ha & Hb).
    injection E2 as -> ->. apply lookup_replicate in Hb as [-> _]. split; cbn [fst snd]; [|simpl; lia].
    rewrite list_lookup_fmap in Ha. destruct (its !! k) as [x|] eqn:Ek; [|done]. injection Ha as <-.
    rewrite Forall_forall in F. apply F. by eapply elem_of_list_lookup_2. }
  exists rows', c', idxs', his', r. split; [done|]. split; [done|]. split; [done|]. split; [done|].
  split; [done|]. split; [by rewrite L1, fmap_length|]. split; [by rewrite L2, replicate_length|].
  split; [done|]. split; [done|]. split; [|split].
  - rewrite (take_ge (zip its.*1 (replicate (length its) 0))) in P'
      by (rewrite zip_with_length, fmap_length, replicate_length; lia).
    rewrite <- (fmap_length fst its) in P' at 1. rewrite zip_zeros in P'. change (stored (withRows c rows')) with (stored c) in *.
    rewrite fmap_app. permN.
  - eapply Forall_impl; [exact F'|]. intros x (A & B & C). split; [done|]. split; [done|].
    eapply hasRow_ext; [by apply Sh| |done]. intros j _. apply cell_shape; apply Sh.
  - intros i j Hi Hni Hj. rewrite (cell_shape (withRows c rows') c') by apply Sh. by apply Ho.
Qed.

(** The result of [insertBatch]. *)
Lemma insertBatch_spec n c items ws its : Inv n c items -> (length its <= ws)%nat ->
  NoDup (items ++ its).*1 -> Forall (fun x => valid n x.1 /\ N.of_nat (length x.2) = hNum c) its ->
  exists c' out,
    hNum c' = hNum c /\ length (hBins c') = length (hBins c) /\ length (hStash c') = length (hStash c) /\
    (Fresh n c items -> Fresh n c' (items ++ its)) /\
    ((insertBatch c ws its.*1 (concat its.*2) = Done (c', out) /\ Inv n c' (items ++ its)) \/
     (insertBatch c ws its.*1 (concat its.*2) = Thrown (c', out) /\ WF n c' /\ minus1 ∉ hStash c' /\
      exists lost, lost ≠ [] /\ (length lost <= length its)%nat /\
        Permutation (stored c' ++ lost) (items ++ its).*1)).
Proof.
  intros I Hws ND F.
  destruct (batch_common n c items its I ND F) as
    (rows' & c1 & idxs' & his' & r & Es & El & W & Sh & Est & L1 & L2 & Hr & Fl & P & Fi & Ho).
  pose proof (sz_num _ _ (wf_sized _ _ (inv_wf _ _ _ I))) as Hn.
  unfold insertBatch. rewrite fmap_length. destruct (Nat.ltb_spec ws (length its)); [lia|].
  rewrite Es. change (mkHasher (hNum c) rows' (hBins c) (hStash c)) with (withRows c rows'). rewrite El.
  destruct (batchStash_spec n (hNum c) (hStash c1) (proj2 Hn) idxs' his' 0 r) as
    (st' & out & over & lost & Eb & Ok & Lst & Lo & P' & Q1 & Q2 & Q3).
  { destruct (wf_stash _ _ W) as (ws' & k & E & Fw). exists ws', k. by rewrite (proj1 Sh) in Fw. }
  { congruence. } { lia. } { lia. } { done. }
  rewrite drop_0 in P'. rewrite Eb.
  set (c2 := mkHasher (hNum c1) (hRows c1) (hBins c1) st').
  assert (hNum c1 = hNum c) as En by apply Sh.
  exists c2, out. split; [done|]. split; [by apply Sh|]. split; [by rewrite <- Est|].
  assert (WF n c2) as W2.
  { constructor; [by eapply Sized_shape, (wf_sized _ _ W)|exact (wf_bins _ _ W)|]. cbn [c2 hNum hStash]. by rewrite En. }
  assert (Permutation (stored c2 ++ lost) (items ++ its).*1) as P2.
  { unfold stored in *. cbn [c2 hBins hStash] in *. permN. }
  split.
  { intros Fr i Hi Hni. rewrite fmap_app in Hni. apply not_elem_of_app in Hni as [N1 N2].
    change (cell c2 i 0) with (cell c1 i 0). rewrite Ho; [by apply Fr|done|done|lia]. }
  destruct over.
  - right. destruct (Q1 eq_refl) as [Hl Hf]. split; [done|]. split; [done|]. split; [done|].
    exists lost. split; [done|]. split; [lia|done].
  - left. split; [done|]. rewrite (Q2 eq_refl), app_nil_r in P2.
    eapply (Inv_shape n c1 c2); [done|done|done|done|]. by rewrite En.
Qed.

(** ** Histories *)

Lemma init_Inv n num bins stash : legalSize n num bins ->
  Inv n (initWith n num bins stash constructed) [] /\ Fresh n (initWith n num bins stash constructed) [].
Proof.
  intros (Hb & Hn & Hs). unfold initWith, constructed. cbn [hRows hBins hStash].
  rewrite !resize_nil.
  set (c := mkHasher _ _ _ _).
  assert (Sized n c) as Sz.
  { constructor; cbn [c hRows hBins hNum]; rewrite ?replicate_length; lia. }
  split.
  - constructor; [|constructor|constructor|].
    + constructor; [done| |].
      * intros a w Hw. left. by apply lookup_replicate in Hw as [-> _].
      * exists [], (N.to_nat stash). done.
    + unfold stored. cbn [c hBins hStash]. by rewrite !occ_replicate.
  - intros i Hi _. pose proof (cell_flat n c i 0 Sz Hi) as H. cbn [c hNum] in H.
    destruct (H ltac:(lia)) as (E & [x Hx] & _). rewrite Hx. rewrite E in Hx.
    cbn [c hRows] in Hx. by apply lookup_replicate in Hx as [-> _].
Qed.

Definition sizes (c c' : Hasher) : Prop :=
  hNum c' = hNum c /\ length (hBins c') = length (hBins c) /\ length (hStash c') = length (hStash c).

Lemma legal_split n num items its : legalItems n num (items ++ its) ->
  legalItems n num items /\ NoDup (items ++ its).*1 /\
  Forall (fun x => valid n x.1 /\ N.of_nat (length x.2) = num) its.
Proof.
  intros [ND F]. apply Forall_app in F as [F1 F2]. split; [|split; [done|]].
  - split; [|done]. rewrite fmap_app in ND. by apply NoDup_app in ND as (? & _).
  - eapply Forall_impl; [exact F2|]. intros x (A & B & C). done.
Qed.

Lemma runOps_spec n os : forall c items, Inv n c items -> Fresh n c items ->
  legalItems n (hNum c) (items ++ opsItems os) -> Forall wsOk os ->
  match runOps c os with
  | Done c' => Inv n c' (items ++ opsItems os) /\ Fresh n c' (items ++ opsItems os) /\ sizes c c'
  | Thrown c' => WF n c' /\ sizes c c' /\ minus1 ∉ hStash c' /\
      exists os1 ws its os2 lost, os = os1 ++ OBatch ws its :: os2 /\ lost ≠ [] /\
        (length lost <= length its)%nat /\
        Permutation (stored c' ++ lost) (items ++ opsItems (os1 ++ [OBatch ws its])).*1
  | UB => exists os1 i row os2 c1, os = os1 ++ OInsert i row :: os2 /\ runOps c os1 = Done c1 /\
        minus1 ∉ hStash c1
  | OutOfFuel => False
  end.
Proof.
  induction os as [|o os IH]; intros c items I Fr Lg Wo.
  - simpl. unfold opsItems. simpl. rewrite app_nil_r. done.
  - apply Forall_cons in Wo as [W1 Wo].
    change (opsItems (o :: os)) with (opItems o ++ opsItems os) in *.
    rewrite app_assoc in Lg |- *.
    destruct (legal_split _ _ _ _ Lg) as (Lg1 & _ & _).
    destruct (legal_split _ _ _ _ Lg1) as (_ & ND & F).
    assert (forall c1, runOp c o = Done c1 -> Inv n c1 (items ++ opItems o) -> Fresh n c1 (items ++ opItems o) ->
      sizes c c1 ->
      match runOps c (o :: os) with
      | Done c' => Inv n c' ((items ++ opItems o) ++ opsItems os) /\ Fresh n c' ((items ++ opItems o) ++ opsItems os) /\ sizes c c'
      | Thrown c' => WF n c' /\ sizes c c' /\ minus1 ∉ hStash c' /\
          exists os1 ws its os2 lost, o :: os = os1 ++ OBatch ws its :: os2 /\ lost ≠ [] /\
            (length lost <= length its)%nat /\
            Permutation (stored c' ++ lost) (items ++ opsItems (os1 ++ [OBatch ws its])).*1
      | UB => exists os1 i row os2 c1, o :: os = os1 ++ OInsert i row :: os2 /\ runOps c os1 = Done c1 /\
            minus1 ∉ hStash c1
      | OutOfFuel => False
      end) as Step.
    { intros c1 E I1 F1 S1. simpl. rewrite E. cbn [andThen obind].
      specialize (IH c1 (items ++ opItems o) I1 F1). rewrite (proj1 S1) in IH. specialize (IH Lg Wo).
      destruct S1 as (S1 & S2 & S3).
      destruct (runOps c1 os) as [c'|c'| |].
      - destruct IH as (A & B & (C1 & C2 & C3)). split; [done|]. split; [done|]. unfold sizes. split_and!; congruence.
      - destruct IH as (A & (C1 & C2 & C3) & B & os1 & ws & its & os2 & lost & -> & D1 & D2 & D3).
        split; [done|]. split; [unfold sizes; split_and!; congruence|]. split; [done|].
        exists (o :: os1), ws, its, os2, lost. split_and!; try done.
        change (opsItems ((o :: os1) ++ [OBatch ws its])) with (opItems o ++ opsItems (os1 ++ [OBatch ws its])).
        by rewrite app_assoc.
      - destruct IH as (os1 & i & row & os2 & c2 & -> & E2 & Hf).
        exists (o :: os1), i, row, os2, c2. split_and!; try done. simpl. rewrite E. done.
      - done. }
    destruct o as [i row|ws its]; cbn [opItems] in *.
    + apply Forall_cons in F as [[V Lr] _]. cbn [fst snd] in V, Lr.
      assert (i ∉ items.*1) as Hni.
      { rewrite fmap_app in ND. apply NoDup_app in ND as (_ & ND & _). intros Hi. apply (ND i Hi). by constructor. }
      destruct (insert_spec n c items i row I Fr V Hni Lr) as [(c' & E & I' & F' & S1 & S2 & S3)|[E Hf]].
      * by apply (Step c' E).
      * cbn [runOps runOp]. rewrite E. cbn [andThen obind]. exists [], i, row, os, c. done.
    + destruct (insertBatch_spec n c items ws its I W1 ND F) as (c' & out & S1 & S2 & S3 & Fr' & [[E I']|(E & W' & Hf & lost & Hl & Ll & P)]).
      * apply (Step c'); [|done|by apply Fr'|done]. simpl. by rewrite E.
      * cbn [runOps runOp]. rewrite E. cbn [andThen obind]. split; [done|]. split; [done|]. split; [done|].
        exists [], ws, its, os, lost. split_and!; try done.
        unfold opsItems. simpl. rewrite app_nil_r. done.
Qed.
