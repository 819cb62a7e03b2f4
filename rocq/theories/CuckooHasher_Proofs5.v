(** Proofs about the model of [CuckooHasher]: statements in specification vocabulary. *)
From stdpp Require Import sets.
From Verif Require Import Base CuckooHasher_Model CuckooHasher_Spec CuckooHasher_Proofs
  CuckooHasher_Proofs2 CuckooHasher_Proofs3 CuckooHasher_Proofs4.

Local Notation fresh n num bins stash := (initWith n num bins stash constructed).

Lemma slotOf_word w : binEmpty w = false -> slotOf w = Some (binIdx w, binHash w).
Proof.
  intros E. unfold slotOf. rewrite binIdx_mod, binHash_div.
  rewrite decide_False; [done|]. intros ->. done.
Qed.

Lemma Inv_placed n c items i row : Inv n c items -> (i, row) ∈ items -> placed c i row.
Proof.
  intros I H. destruct (item_facts n c items i row I H) as (V & L & R).
  pose proof (sz_num _ _ (wf_sized _ _ (inv_wf _ _ _ I))) as Hn.
  assert (i ∈ stored c) as Hs.
  { rewrite (inv_stored _ _ _ I). by apply (elem_of_list_fmap_1 fst _ (i, row)). }
  unfold stored in Hs. apply elem_of_app in Hs as [Hs|Hs]; apply occ_elem in Hs as (a & w & Hw & E & Ei).
  - left. destruct (wf_bins _ _ (inv_wf _ _ _ I) a w Hw) as [->|[G (x & Hx & Ha)]]; [by rewrite binEmpty_minus1 in E|].
    destruct (goodWord_facts n (hNum c) w ltac:(lia) G) as (_ & _ & Hh & _).
    rewrite Ei, (R _ Hh) in Hx. exists (N.to_nat (binHash w)), x, w.
    split; [done|]. split; [by rewrite Ha, Nat2N.id|].
    rewrite (slotOf_word w E), Ei, N2Nat.id. done.
  - right. exists a, w, (binHash w). split; [done|]. by rewrite (slotOf_word w E), Ei.
Qed.

Lemma fresh_run n num bins stash os : legalSize n num bins -> legalOps n num os ->
  match runOps (fresh n num bins stash) os with
  | Done c' => Inv n c' (opsItems os) /\ Fresh n c' (opsItems os) /\ sizes (fresh n num bins stash) c'
  | Thrown c' => WF n c' /\ sizes (fresh n num bins stash) c' /\ minus1 ∉ hStash c' /\
      exists os1 ws its os2 lost, os = os1 ++ OBatch ws its :: os2 /\ lost ≠ [] /\
        (length lost <= length its)%nat /\
        Permutation (stored c' ++ lost) (opsItems (os1 ++ [OBatch ws its])).*1
  | UB => exists os1 i row os2 c1, os = os1 ++ OInsert i row :: os2 /\
        runOps (fresh n num bins stash) os1 = Done c1 /\ minus1 ∉ hStash c1
  | OutOfFuel => False
  end.
Proof.
  intros Hs [Lg Wo]. destruct (init_Inv n num bins stash Hs) as [I F].
  exact (runOps_spec n os _ [] I F Lg Wo).
Qed.

Lemma hasher_retained n num bins stash os c : legalSize n num bins -> legalOps n num os ->
  runOps (fresh n num bins stash) os = Done c ->
  Permutation (storedIn c) (opsItems os).*1 /\ Forall (fun x => placed c x.1 x.2) (opsItems os).
Proof.
  intros Hs Hl E. pose proof (fresh_run n num bins stash os Hs Hl) as H. rewrite E in H.
  destruct H as (I & _ & _). split; [rewrite storedIn_stored; apply I|].
  apply Forall_forall. intros [i row] Hi. by eapply Inv_placed.
Qed.

Lemma hasher_find n num bins stash os c q : legalSize n num bins -> legalOps n num os ->
  runOps (fresh n num bins stash) os = Done c -> N.of_nat (length q) = num ->
  exists r, find c q = Done r /\ answers (opsItems os) q r.
Proof.
  intros Hs Hl E Lq. pose proof (fresh_run n num bins stash os Hs Hl) as H. rewrite E in H.
  destruct H as (I & _ & (S1 & _)). apply (find_spec n); [done|]. rewrite S1. done.
Qed.

(** ** Overflow *)

Lemma runOps_app c os1 os2 : runOps c (os1 ++ os2) = andThen (runOps c os1) (fun c' => runOps c' os2).
Proof.
  revert c. induction os1 as [|o os1 IH]; intros c; [done|]. simpl.
  destruct (runOp c o); try done. simpl. apply IH.
Qed.

Lemma opsItems_app os1 os2 : opsItems (os1 ++ os2) = opsItems os1 ++ opsItems os2.
Proof. unfold opsItems. by rewrite map_app, concat_app. Qed.

Lemma hasher_batch n num bins stash os c ws its : legalSize n num bins ->
  legalOps n num (os ++ [OBatch ws its]) ->
  runOps (fresh n num bins stash) os = Done c ->
  exists c', (runOp c (OBatch ws its) = Done c' \/
    runOp c (OBatch ws its) = Thrown c' /\ (2 ^ 64 - 1) ∉ hStash c' /\
      exists lost, lost ≠ [] /\ (length lost <= length its)%nat /\
        Permutation (storedIn c' ++ lost) (opsItems os ++ its).*1).
Proof.
  intros Hs [Lg Wo] E. rewrite opsItems_app in Lg. unfold opsItems at 2 in Lg. simpl in Lg. rewrite app_nil_r in Lg.
  apply Forall_app in Wo as [Wo Wb].
  destruct (legal_split _ _ _ _ Lg) as (Lg1 & ND & F).
  pose proof (fresh_run n num bins stash os Hs (conj Lg1 Wo)) as H. rewrite E in H.
  destruct H as (I & _ & (S1 & _)). cbn [hNum initWith] in S1.
  destruct (insertBatch_spec n c (opsItems os) ws its I) as (c' & out & _ & _ & _ & _ & R).
  { exact (proj1 (Forall_singleton _ _) Wb). } { done. } { by rewrite S1. }
  exists c'. cbn [runOp]. destruct R as [[-> _]|(-> & _ & Hf & lost & A & B & C)]; [by left|right].
  split; [done|]. split; [done|]. exists lost. by rewrite storedIn_stored.
Qed.

Lemma hasher_insert n num bins stash os c i row : legalSize n num bins ->
  legalOps n num (os ++ [OInsert i row]) ->
  runOps (fresh n num bins stash) os = Done c ->
  (exists c', insert c i row = Done c') \/ (insert c i row = UB /\ (2 ^ 64 - 1) ∉ hStash c).
Proof.
  intros Hs [Lg Wo] E. rewrite opsItems_app in Lg. unfold opsItems at 2 in Lg. simpl in Lg.
  apply Forall_app in Wo as [Wo _].
  destruct (legal_split _ _ _ _ Lg) as (Lg1 & ND & F).
  pose proof (fresh_run n num bins stash os Hs (conj Lg1 Wo)) as H. rewrite E in H.
  destruct H as (I & Fr & (S1 & _)). cbn [hNum initWith] in S1.
  apply Forall_singleton in F as [V Lr]. cbn [fst snd] in V, Lr.
  destruct (insert_spec n c (opsItems os) i row I Fr V) as [(c' & Ei & _)|[Ei Hf]].
  - rewrite fmap_app in ND. apply NoDup_app in ND as (_ & ND & _). intros Hi. apply (ND i Hi). by constructor.
  - by rewrite S1.
  - left. by exists c'.
  - by right.
Qed.

(** Positions of the used words. *)
Lemma used_positions v : exists ps : list nat, NoDup ps /\ length ps = length (occ v) /\
  forall a, a ∈ ps -> exists w, v !! a = Some w /\ binEmpty w = false.
Proof.
  induction v as [|w v (ps & ND & L & H)].
  - exists []. split; [constructor|]. split; [done|]. intros a Ha. by apply elem_of_nil in Ha.
  - assert (NoDup (S <$> ps)) as ND2 by (apply NoDup_fmap_2; [by intros ? ? [=]|done]).
    assert (forall a, a ∈ S <$> ps -> exists w0, (w :: v) !! a = Some w0 /\ binEmpty w0 = false) as H2.
    { intros a Ha. apply elem_of_list_fmap in Ha as (b & -> & Hb). apply (H b Hb). }
    rewrite occ_cons. destruct (binEmpty w) eqn:E.
    + exists (S <$> ps). apply binEmpty_true in E as ->. rewrite fmap_length. done.
    + exists (0%nat :: (S <$> ps)). rewrite (occW_full w E). split; [|split].
      * constructor; [|done]. intros Hc. by apply elem_of_list_fmap in Hc as (b & ? & _).
      * simpl. by rewrite fmap_length, L.
      * intros a Ha. apply elem_of_cons in Ha as [->|Ha]; [by exists w|by apply H2].
Qed.

Lemma occ_length v : (length (occ v) <= length v)%nat.
Proof.
  induction v as [|w v IH]; [done|]. rewrite occ_cons, app_length. simpl.
  destruct (binEmpty w) eqn:E; [apply binEmpty_true in E as ->; simpl; lia|].
  rewrite (occW_full w E). simpl. lia.
Qed.

(** Items with one and the same row fill at most [hNum] bins and the stash. *)
Lemma same_row_capacity n c items row : Inv n c items -> Forall (fun x => x.2 = row) items ->
  (length items <= N.to_nat (hNum c) + length (hStash c))%nat.
Proof.
  intros I F. pose proof (sz_num _ _ (wf_sized _ _ (inv_wf _ _ _ I))) as Hn.
  destruct (used_positions (hBins c)) as (ps & ND & L & H).
  destruct items as [|[i0 row0] items0] eqn:Ei; [simpl; lia|]. rewrite <- Ei in *.
  assert (N.of_nat (length row) = hNum c) as Lr.
  { destruct (item_facts n c items i0 row0 I) as (_ & Lr & _); [rewrite Ei; constructor|].
    rewrite Ei in F. apply Forall_cons in F as [Er _]. cbn [snd] in Er. by subst. }
  assert (length ps <= length (map (fun x => N.to_nat (x mod N.of_nat (length (hBins c)))) row))%nat as Hp.
  { apply NoDup_incl_length; [by apply NoDup_ListNoDup|].
    intros a Ha. apply elem_of_list_In in Ha. destruct (H a Ha) as (w & Hw & E).
    destruct (wf_bins _ _ (inv_wf _ _ _ I) a w Hw) as [->|[G (x & Hx & Hax)]]; [by rewrite binEmpty_minus1 in E|].
    destruct (goodWord_facts n (hNum c) w ltac:(lia) G) as (_ & _ & Hh & _).
    destruct (bins_entry n c items a w I Hw) as [->|[_ Hin]]; [by rewrite binEmpty_minus1 in E|].
    apply elem_of_list_fmap in Hin as ([i r] & Eb & Hin). cbn [fst] in Eb.
    destruct (item_facts n c items i r I Hin) as (_ & _ & R).
    rewrite Forall_forall in F. pose proof (F _ Hin) as Er. cbn [snd] in Er. subst r.
    rewrite Eb, (R _ Hh) in Hx. apply in_map_iff. exists x. split; [lia|].
    apply elem_of_list_In. by eapply elem_of_list_lookup_2. }
  rewrite map_length in Hp.
  pose proof (Permutation_length (inv_stored _ _ _ I)) as Ls.
  unfold stored in Ls. rewrite app_length, fmap_length in Ls.
  pose proof (occ_length (hStash c)). lia.
Qed.

Lemma hasher_overflow n num bins stash os row : legalSize n num bins -> legalOps n num os ->
  Forall (fun x => x.2 = row) (opsItems os) ->
  num + stash < N.of_nat (length (opsItems os)) ->
  forall c, runOps (fresh n num bins stash) os ≠ Done c.
Proof.
  intros Hs Hl F Hlen c E. pose proof (fresh_run n num bins stash os Hs Hl) as H. rewrite E in H.
  destruct H as (I & _ & (S1 & _ & S3)).
  pose proof (same_row_capacity n c _ row I F) as Hc.
  rewrite S1, S3 in Hc. cbn [initWith hNum hStash constructed] in Hc.
  rewrite resize_length in Hc. lia.
Qed.

Lemma hasher_overflow_ub n num bins stash items row : legalSize n num bins -> legalItems n num items ->
  Forall (fun x => x.2 = row) items -> num + stash < N.of_nat (length items) ->
  runOps (fresh n num bins stash) (map (fun x => OInsert x.1 x.2) items) = UB.
Proof.
  intros Hs Hl F Hlen. set (os := map (fun x => OInsert x.1 x.2) items).
  assert (opsItems os = items) as Eo.
  { unfold opsItems, os. rewrite map_map. clear. induction items as [|[i r] l IH]; [done|]. rewrite map_cons. cbn [concat]. by rewrite IH. }
  assert (legalOps n num os) as Lo.
  { split; [by rewrite Eo|]. unfold os. apply Forall_map, Forall_forall. done. }
  pose proof (fresh_run n num bins stash os Hs Lo) as H.
  destruct (runOps (fresh n num bins stash) os) as [c|c| |] eqn:E; [| |done|done].
  - exfalso. eapply (hasher_overflow n num bins stash os row); try done; by rewrite Eo.
  - exfalso. destruct H as (_ & _ & _ & os1 & ws & its & os2 & _ & Ec & _).
    assert (OBatch ws its ∈ os) as Hin by (rewrite Ec; apply elem_of_app; right; constructor).
    unfold os in Hin. apply elem_of_list_In, in_map_iff in Hin as (x & ? & _). done.
Qed.

Lemma hasher_overflow_throw n num bins stash bs row : legalSize n num bins ->
  legalItems n num (concat bs.*2) -> Forall (fun b => (length b.2 <= b.1)%nat) bs ->
  Forall (fun x => x.2 = row) (concat bs.*2) -> num + stash < N.of_nat (length (concat bs.*2)) ->
  exists c, runOps (fresh n num bins stash) (map (fun b => OBatch b.1 b.2) bs) = Thrown c.
Proof.
  intros Hs Hl Wo F Hlen. set (os := map (fun b => OBatch b.1 b.2) bs).
  assert (opsItems os = concat bs.*2) as Eo.
  { unfold opsItems, os. rewrite map_map. done. }
  assert (legalOps n num os) as Lo.
  { split; [by rewrite Eo|]. unfold os. apply Forall_map. done. }
  pose proof (fresh_run n num bins stash os Hs Lo) as H.
  destruct (runOps (fresh n num bins stash) os) as [c|c| |] eqn:E; [|by exists c| |done].
  - exfalso. eapply (hasher_overflow n num bins stash os row); try done; by rewrite Eo.
  - exfalso. destruct H as (os1 & i & r & os2 & c1 & Ec & _).
    assert (OInsert i r ∈ os) as Hin by (rewrite Ec; apply elem_of_app; right; constructor).
    unfold os in Hin. apply elem_of_list_In, in_map_iff in Hin as (x & ? & _). done.
Qed.

(** ** Batch lookup *)

Lemma hasher_findBatch n bins stash os c ws cap qs : legalSize n 2 bins -> legalOps n 2 os ->
  runOps (fresh n 2 bins stash) os = Done c -> (length qs <= ws)%nat -> (length qs <= cap)%nat ->
  exists out, findBatch c ws cap qs = Done out /\ length out = length qs /\
    forall k q0 q1 r, qs !! k = Some (q0, q1) -> out !! k = Some r -> answers (opsItems os) [q0; q1] r.
Proof.
  intros Hs Hl E Hw Hc. pose proof (fresh_run n 2 bins stash os Hs Hl) as H. rewrite E in H.
  destruct H as (I & _ & (S1 & _)). by apply (findBatch_spec n).
Qed.

Lemma hasher_findBatch_find n bins stash os c ws cap qs : legalSize n 2 bins -> legalOps n 2 os ->
  NoDup (opsItems os).*2 ->
  runOps (fresh n 2 bins stash) os = Done c -> (length qs <= ws)%nat -> (length qs <= cap)%nat ->
  exists out, findBatch c ws cap qs = Done out /\
    map Done out = map (fun q => find c [q.1; q.2]) qs.
Proof.
  intros Hs Hl ND E Hw Hc.
  destruct (hasher_findBatch n bins stash os c ws cap qs Hs Hl E Hw Hc) as (out & Eo & L & H).
  exists out. split; [done|]. apply list_eq. intros k.
  change (map Done out) with (Done <$> out). change (map (fun q => find c [q.1; q.2]) qs) with ((fun q => find c [q.1; q.2]) <$> qs).
  rewrite !list_lookup_fmap.
  destruct (qs !! k) as [[q0 q1]|] eqn:Eq.
  - destruct (lookup_lt_is_Some_2 out k) as [r Hr]; [apply lookup_lt_Some in Eq; lia|].
    rewrite Hr. cbn [fmap option_fmap option_map fst snd].
    destruct (hasher_find n 2 bins stash os c [q0; q1] Hs Hl E eq_refl) as (r' & Ef & Ha).
    rewrite Ef. do 2 f_equal. eapply answers_fun; [done|by eapply H|done].
  - assert (out !! k = None) as ->; [|done]. apply lookup_ge_None. apply lookup_ge_None in Eq. lia.
Qed.

(** ** [SimpleCuckoo] *)

Lemma simple_retained n num bins bs : legalSize n num bins -> legalItems n num (concat bs.*2) ->
  Forall (fun b => (length b.2 <= b.1)%nat) bs ->
  exists c, simpleRun (simpleInit n num bins constructed) bs = Done c /\
    Permutation (storedIn c) (concat bs.*2).*1 /\
    Forall (fun x => placed c x.1 x.2) (concat bs.*2) /\
    forall qs, Forall (fun q => N.of_nat (length q) = num) qs ->
      exists out, simpleFindBatch c qs = Done out /\ Forall2 (answers (concat bs.*2)) qs out.
Proof.
  intros Hs Hl Wo.
  destruct (simpleRun_spec n bs (simpleInit n num bins constructed) [] (simpleInit_Inv n num bins Hs)) as (c & E & I & En).
  { simpl. apply not_elem_of_nil. } { done. } { done. }
  cbn [app] in I. cbn [simpleInit hNum] in En.
  exists c. split; [done|]. split; [rewrite storedIn_stored; apply I|]. split.
  - apply Forall_forall. intros [i row] Hi. by eapply Inv_placed.
  - intros qs Hq. apply (simpleFindBatch_spec n); [done|]. by rewrite En.
Qed.

(** ** One by one or in batches of one *)

Lemma batchLoop_one tries c i h : 0 < N.of_nat (length (hBins c)) -> 1 <= hNum c ->
  batchLoop (S tries) c [i] [h] 1 =
  match put c i h with
  | None => None
  | Some (c', old) =>
      if binEmpty old then Some (c', [i], [h], 0%nat)
      else batchLoop tries c' [binIdx old] [(1 + binHash old) mod hNum c] 1
  end.
Proof.
  intros Hb Hn. cbn [batchLoop]. change (take 1 (zip [i] [h])) with [(i, h)]. cbn [fetchAddrs].
  unfold put. destruct (cell c i h) as [x|]; [|done].
  destruct (N.eqb_spec (N.of_nat (length (hBins c))) 0); [lia|].
  cbn [swapAll].
  assert (x mod N.of_nat (length (hBins c)) < N.of_nat (length (hBins c))) as Ha by (apply N.mod_lt; lia).
  destruct (lookup_lt_is_Some_2 (hBins c) (N.to_nat (x mod N.of_nat (length (hBins c))))) as [w Hw]; [lia|].
  assert (readN (hBins c) (x mod N.of_nat (length (hBins c))) = Some w) as -> by by apply readN_Some.
  rewrite Hw. destruct (N.eqb_spec (hNum c) 0); [lia|].
  unfold compact. cbn [compactHead]. unfold evicted at 1. cbn [lOld list_lookup lookup].
  change ([w] !! 0%nat) with (Some w). cbn [from_option id].
  destruct (binEmpty w); cbn [negb].
  - simpl. by destruct tries.
  - done.
Qed.

Lemma one_chain n tries : forall c i h c' x y left, WF n c -> valid n i -> h < hNum c ->
  batchLoop tries c [i] [h] 1 = Some (c', x, y, 0%nat) -> (tries <= S left)%nat ->
  insertHelper left c i h = Done c'.
Proof.
  induction tries as [|tries IH]; intros c i h c' x y left W V Hh E Hle.
  - done.
  - pose proof (wf_sized _ _ W) as Sz. pose proof (sz_num _ _ Sz) as Hn. pose proof (sz_bins _ _ Sz) as Hb.
    rewrite (batchLoop_one _ _ _ _ Hb (proj1 Hn)) in E. rewrite (insertHelper_put _ _ _ _ Hb).
    destruct (put_spec n c i h W V Hh) as (c1 & old & Ep & W1 & Sh & _ & _ & Ho). rewrite Ep in E |- *.
    destruct (binEmpty old) eqn:Eb; [congruence|].
    destruct Ho as [->|G]; [done|].
    destruct (goodWord_facts n _ _ (proj2 Hn) G) as (_ & V' & H' & _).
    destruct left as [|left].
    + assert (tries = 0%nat) as -> by lia. done.
    + destruct (N.eqb_spec (hNum c) 0); [lia|].
      rewrite (N.add_comm (binHash old)). eapply (IH c1); [done|done| |done|lia].
      rewrite (proj1 Sh). apply N.mod_lt. lia.
Qed.

Lemma hasher_one n num bins stash os c i row ws c' : legalSize n num bins ->
  legalOps n num (os ++ [OInsert i row]) -> (1 <= ws)%nat ->
  runOps (fresh n num bins stash) os = Done c ->
  runOp c (OBatch ws [(i, row)]) = Done c' -> hStash c' = hStash c ->
  insert c i row = Done c'.
Proof.
  intros Hs [Lg Wo] Hws E Eb Est. rewrite opsItems_app in Lg. unfold opsItems at 2 in Lg. simpl in Lg.
  apply Forall_app in Wo as [Wo _].
  destruct (legal_split _ _ _ _ Lg) as (Lg1 & ND & F).
  pose proof (fresh_run n num bins stash os Hs (conj Lg1 Wo)) as H. rewrite E in H.
  destruct H as (I & Fr & (S1 & _)). cbn [hNum initWith] in S1.
  assert (i ∉ (opsItems os).*1) as Hni.
  { rewrite fmap_app in ND. apply NoDup_app in ND as (_ & ND & _). intros Hi. apply (ND i Hi). by constructor. }
  pose proof F as F0. apply Forall_singleton in F0 as [V Lr]. cbn [fst snd] in V, Lr.
  pose proof (sz_num _ _ (wf_sized _ _ (inv_wf _ _ _ I))) as Hn.
  destruct (batch_common n c (opsItems os) [(i, row)] I ND ltac:(by rewrite S1)) as
    (rows' & c1 & idxs' & his' & r & Es & El & W & Sh & Est1 & L1 & L2 & Hr & Fl & P & Fi & Ho).
  cbn [runOp] in Eb. unfold insertBatch in Eb. cbn [length fmap list_fmap fst snd concat] in *.
  destruct (Nat.ltb_spec ws 1); [lia|].
  change ([(i, row)].*2) with [row] in Eb. change ([(i, row)].*1) with [i] in *. change ([(i, row)].*2) with [row] in Es.
  rewrite Es in Eb. change (mkHasher (hNum c) rows' (hBins c) (hStash c)) with (withRows c rows') in Eb.
  cbn [length] in Eb. rewrite El in Eb.
  assert (insert c i row = insertHelper 100 (withRows c rows') i 0) as ->.
  { unfold insert. rewrite (Fr i (proj1 V) Hni), N.eqb_refl. cbn [negb].
    cbn [setRows concat] in Es. rewrite app_nil_r, N.mul_0_l in Es.
    change (0 mod two64) with 0 in Es. destruct (copyRow _ row 0 _ _); [|done]. injection Es as ->. done. }
  assert (WF n (withRows c rows')) as Wr.
  { destruct (Pre_row n c (opsItems os) [] i row row 0) as (rows2 & E2 & Pr & _).
    { by apply Pre_Inv. } { done. } { by rewrite app_nil_r. } { by rewrite S1. } { lia. } { done. }
    cbn [setRows concat] in Es. rewrite app_nil_r, N.mul_0_l in Es. change (0 mod two64) with 0 in Es.
    rewrite E2 in Es. injection Es as <-. apply (pre_wf _ _ _ _ Pr). }
  assert (r = 0%nat) as ->.
  { destruct r as [|r]; [done|]. exfalso. assert (r = 0%nat) as -> by lia.
    destruct (batchStash_spec n (hNum c) (hStash c1) (proj2 Hn) idxs' his' 0 1) as
      (st' & out & over & lost & Eb2 & Ok & Lst & Lo & P' & Q1 & Q2 & Q3).
    { destruct (wf_stash _ _ W) as (ws' & k & E0 & Fw). exists ws', k. by rewrite (proj1 Sh) in Fw. }
    { congruence. } { lia. } { lia. } { done. }
    rewrite Eb2 in Eb. destruct over; [done|]. injection Eb as <-. cbn [hStash] in Est.
    rewrite (Q2 eq_refl), app_nil_r, drop_0, Est, Est1 in P'.
    apply Permutation_length in P'. rewrite app_length, fmap_length, take_length, zip_with_length in P'. lia. }
  assert (c' = c1) as ->.
  { destruct (hStash c1) eqn:Est2; cbn [batchStash Nat.sub] in Eb; injection Eb as <-; rewrite <- Est2; by destruct c1. }
  eapply (one_chain n 100); [done|done|simpl; lia|exact El|lia].
Qed.

(** ** Inserting an index twice *)

Lemma hasher_twice n num bins stash os c i row row2 h0 : legalSize n num bins -> legalOps n num os ->
  runOps (fresh n num bins stash) os = Done c -> (i, row) ∈ opsItems os ->
  row !! 0%nat = Some h0 -> h0 ≠ 2 ^ 64 - 1 ->
  insert c i row2 = Thrown c.
Proof.
  intros Hs Hl E Hi Hr Hne. pose proof (fresh_run n num bins stash os Hs Hl) as H. rewrite E in H.
  destruct H as (I & _ & _). destruct (item_facts n c _ i row I Hi) as (V & L & R).
  pose proof (sz_num _ _ (wf_sized _ _ (inv_wf _ _ _ I))) as Hn.
  unfold insert. rewrite (R 0 ltac:(lia)). change (N.to_nat 0) with 0%nat. rewrite Hr.
  destruct (N.eqb_spec h0 minus1); [done|]. done.
Qed.

(** ** Parameters *)

Lemma paramClass_spec n s : match paramClass n s with
  | None => s ≠ 40 \/ 2 ^ 32 < n
  | Some k => s = 40 /\ n <= 2 ^ k /\ k ∈ [7; 8; 12; 16; 20; 24; 28; 30; 32] /\
      forall k', k' ∈ [7; 8; 12; 16; 20; 24; 28; 30; 32] -> k' < k -> 2 ^ k' < n
  end.
Proof.
  unfold paramClass. destruct (N.eqb_spec s 40) as [->|]; cbn [negb]; [|by left].
  assert (forall k, k ∈ [7; 8; 12; 16; 20; 24; 28; 30; 32] <->
    k = 7 \/ k = 8 \/ k = 12 \/ k = 16 \/ k = 20 \/ k = 24 \/ k = 28 \/ k = 30 \/ k = 32) as Hk.
  { intros k. rewrite !elem_of_cons. pose proof (not_elem_of_nil k). tauto. }
  repeat match goal with |- context [if ?a <=? ?b then _ else _] => destruct (N.leb_spec a b) end;
    try (right; assumption).
  all: split; [done|]; split; [assumption|]; split; [apply Hk; tauto|].
  all: intros k' Hin Hlt; apply Hk in Hin.
  all: repeat destruct Hin as [->|Hin]; try subst k'; first [assumption | exfalso; clear -Hlt; lia].
Qed.

Lemma hasher_params (table : N -> HParams) n statSec c :
  match init table n statSec c with
  | Done c' => statSec = 40 /\ exists k, k ∈ [7; 8; 12; 16; 20; 24; 28; 30; 32] /\ n <= 2 ^ k /\
      (forall k', k' ∈ [7; 8; 12; 16; 20; 24; 28; 30; 32] -> k' < k -> 2 ^ k' < n) /\
      hNum c' = qNum (table k) /\ N.of_nat (length (hBins c')) = qBins (table k) /\
      N.of_nat (length (hStash c')) = qStash (table k) /\ N.of_nat (length (hRows c')) = n * qNum (table k)
  | Thrown c' => c' = c /\ (statSec ≠ 40 \/ 2 ^ 32 < n)
  | _ => False
  end.
Proof.
  unfold init. pose proof (paramClass_spec n statSec) as H. destruct (paramClass n statSec) as [k|].
  - destruct H as (E & Hn & Hk & Hmin). split; [done|]. exists k. split; [done|]. split; [done|]. split; [done|].
    cbn [initWith hNum hBins hStash hRows]. rewrite !resize_length, !N2Nat.id. done.
  - done.
Qed.

Lemma hasher_init n num bins stash q : legalSize n num bins -> N.of_nat (length q) = num ->
  storedIn (fresh n num bins stash) = [] /\ find (fresh n num bins stash) q = Done (2 ^ 64 - 1).
Proof.
  intros Hs Lq. assert (legalOps n num []) as Hl.
  { split; [split; constructor|constructor]. }
  destruct (hasher_retained n num bins stash [] _ Hs Hl eq_refl) as [P _].
  split; [symmetry in P; by apply Permutation_nil in P|].
  destruct (hasher_find n num bins stash [] _ q Hs Hl eq_refl Lq) as (r & -> & [H|[-> _]]); [|done].
  by apply elem_of_nil in H.
Qed.
