(** Proofs about the model of [CuckooHasher]: batches. *)
From stdpp Require Import sets.
From Verif Require Import Base CuckooHasher_Model CuckooHasher_Spec CuckooHasher_Proofs.

(** ** Compaction *)

Definition used (w : N) : bool := negb (binEmpty w).
Definition dec (num w : N) : N * N := (binIdx w, (1 + binHash w) mod num).

Lemma take_S_insert {A} (l : list A) p x : (p < length l)%nat ->
  take (S p) (<[p := x]> l) = take p l ++ [x].
Proof.
  intros H. rewrite (take_S_r _ _ x) by (by apply list_lookup_insert).
  by rewrite take_insert by lia.
Qed.

Definition zipped (l : Lanes) : list (N * N) := zip (lIdx l) (lHash l).
Definition fits (r len : nat) (l : Lanes) : Prop :=
  length (lIdx l) = len /\ length (lHash l) = len /\ length (lOld l) = r /\ (r <= len)%nat.

Lemma takeOver_zipped num r len l p g w : fits r len l -> (p < r)%nat -> lOld l !! g = Some w ->
  fits r len (takeOver num l p g) /\ lOld (takeOver num l p g) = lOld l /\
  take (S p) (zipped (takeOver num l p g)) = take p (zipped l) ++ [dec num w].
Proof.
  intros (F1 & F2 & F3 & F4) Hp Hw. unfold takeOver. rewrite Hw. cbn [default].
  split; [|split; [done|]].
  - unfold fits. cbn [lIdx lHash lOld]. rewrite !insert_length. done.
  - unfold zipped. cbn [lIdx lHash]. rewrite <- insert_zip_with. apply take_S_insert.
    rewrite zip_with_length. lia.
Qed.

Lemma evicted_used l i w : lOld l !! i = Some w -> evicted l i = used w.
Proof. unfold evicted. by intros ->. Qed.

Lemma compactHead_spec num r len k : forall l p, fits r len l -> (k + p = r)%nat ->
  take p (zipped l) = map (dec num) (take p (lOld l)) ->
  Forall (fun w => used w = true) (take p (lOld l)) ->
  exists l' p', compactHead num k l p = (l', p') /\ fits r len l' /\ lOld l' = lOld l /\ (p' <= r)%nat /\
    take p' (zipped l') = map (dec num) (take p' (lOld l)) /\
    Forall (fun w => used w = true) (take p' (lOld l)) /\
    (p' = r \/ exists w, lOld l !! p' = Some w /\ used w = false).
Proof.
  induction k as [|k IH]; intros l p Fi Ek Z U; cbn [compactHead].
  - exists l, p. split_and!; try done; [lia|left; lia].
  - destruct (lookup_lt_is_Some_2 (lOld l) p) as [w Hw]; [destruct Fi as (_ & _ & ? & _); lia|].
    rewrite (evicted_used _ _ _ Hw). destruct (used w) eqn:Eu.
    + destruct (takeOver_zipped num r len l p p w Fi ltac:(lia) Hw) as (Fi' & Eo & Z').
      destruct (IH (takeOver num l p p) (S p) Fi' ltac:(lia)) as (l' & p' & -> & R).
      * rewrite Z', Eo, Z, (take_S_r _ _ _ Hw), map_app. done.
      * rewrite Eo, (take_S_r _ _ _ Hw). apply Forall_app. split; [done|]. by repeat constructor.
      * rewrite Eo in R. exists l', p'. done.
    + exists l, p. split_and!; try done; [lia|right; by exists w].
Qed.

Lemma drop_insert_lt {A} (l : list A) i k x : (i < k)%nat -> drop k (<[i := x]> l) = drop k l.
Proof. intros. by rewrite drop_insert_gt. Qed.

Lemma compactTail_spec num r len k : forall l p g, fits r len l -> (k + g = r)%nat -> (p < g)%nat ->
  exists l' p', compactTail num k l p g = (l', p') /\ fits r len l' /\
    take p' (zipped l') = take p (zipped l) ++ map (dec num) (List.filter used (drop g (lOld l))) /\
    p' = (p + length (List.filter used (drop g (lOld l))))%nat.
Proof.
  induction k as [|k IH]; intros l p g Fi Ek Hp; cbn [compactTail].
  - exists l, p. pose proof Fi as (F1 & F2 & F3 & F4).
    rewrite drop_ge by lia. simpl. rewrite app_nil_r, Nat.add_0_r. done.
  - destruct (lookup_lt_is_Some_2 (lOld l) g) as [w Hw]; [destruct Fi as (_ & _ & ? & _); lia|].
    rewrite (evicted_used _ _ _ Hw). rewrite (drop_S _ _ _ Hw). simpl List.filter.
    destruct (used w) eqn:Eu.
    + destruct (takeOver_zipped num r len l p g w Fi ltac:(lia) Hw) as (Fi' & Eo & Z').
      set (l1 := takeOver num l p g) in *.
      assert (fits r len (swapOld l1 p g)) as Fi2.
      { destruct Fi' as (A & B & C & D). unfold fits, swapOld. cbn [lIdx lHash lOld].
        rewrite !insert_length. done. }
      destruct (IH (swapOld l1 p g) (S p) (S g) Fi2 ltac:(lia) ltac:(lia))
        as (l' & p' & -> & Fi3 & T & E).
      assert (drop (S g) (lOld (swapOld l1 p g)) = drop (S g) (lOld l)) as Ed.
      { unfold swapOld. cbn [lOld]. rewrite !drop_insert_lt by lia. by rewrite Eo. }
      rewrite Ed in T, E.
      change (zipped (swapOld l1 p g)) with (zipped l1) in T. rewrite Z' in T.
      exists l', p'. split; [done|]. split; [done|].
      split; [|simpl; lia]. rewrite T. simpl. by rewrite <- app_assoc.
    + destruct (IH l p (S g) Fi ltac:(lia) ltac:(lia)) as (l' & p' & -> & R).
      exists l', p'. done.
Qed.

Lemma filter_all {A} (f : A -> bool) l : Forall (fun x => f x = true) l -> List.filter f l = l.
Proof. induction 1 as [|x l E _ IH]; [done|]. simpl. by rewrite E, IH. Qed.

Lemma filter_app_list {A} (f : A -> bool) l1 l2 :
  List.filter f (l1 ++ l2) = List.filter f l1 ++ List.filter f l2.
Proof. induction l1 as [|x l IH]; [done|]. simpl. destruct (f x); by rewrite IH. Qed.

Lemma filter_len_le {A} (f : A -> bool) l : (length (List.filter f l) <= length l)%nat.
Proof. induction l as [|x l IH]; [done|]. simpl. destruct (f x); simpl; lia. Qed.

(** The evicted items, moved to the front in order. *)
Lemma compact_spec num idxs his olds : length idxs = length his -> (length olds <= length idxs)%nat ->
  exists l, compact num (length olds) (mkLanes idxs his olds) = (l, length (List.filter used olds)) /\
    length (lIdx l) = length idxs /\ length (lHash l) = length his /\
    take (length (List.filter used olds)) (zipped l) = map (dec num) (List.filter used olds).
Proof.
  intros L Hr. set (r := length olds) in *. set (l0 := mkLanes idxs his olds).
  assert (fits r (length idxs) l0) as Fi by done.
  unfold compact.
  destruct (compactHead_spec num r (length idxs) r l0 0 Fi ltac:(lia)) as (l1 & p & -> & Fi1 & Eo & Hp & Z & U & Hst);
    [done|constructor|].
  change (lOld l0) with olds in *.
  assert (List.filter used olds = take p olds ++ List.filter used (drop (p + 1) olds)) as Ef.
  { rewrite <- (take_drop p olds) at 1. rewrite filter_app_list, (filter_all used) by done. f_equal.
    destruct Hst as [->|(w & Hw & Hu)].
    - rewrite !drop_ge by lia. done.
    - rewrite (drop_S _ _ _ Hw). simpl. rewrite Hu. by rewrite Nat.add_1_r. }
  assert (length (take p olds) = p) as Lp by (rewrite take_length; lia).
  destruct (decide (p = r)) as [->|Hne].
  - replace (r - (r + 1))%nat with 0%nat by lia. cbn [compactTail].
    rewrite (drop_ge olds (r + 1)) in Ef by lia. simpl in Ef. rewrite app_nil_r in Ef.
    rewrite Ef, Lp. exists l1. destruct Fi1 as (A & B & C & D).
    split; [done|]. split; [done|]. split; [congruence|done].
  - destruct (compactTail_spec num r (length idxs) (r - (p + 1)) l1 p (p + 1) Fi1 ltac:(lia) ltac:(lia))
      as (l' & p' & -> & (A & B & C & D) & T & E).
    rewrite Eo in T, E. exists l'.
    assert (p' = length (List.filter used olds)) as -> by (rewrite Ef, app_length, Lp; done).
    split; [done|]. split; [done|]. split; [congruence|].
    rewrite T, Z, Ef, map_app. done.
Qed.

(** ** The exchanges of one round *)

Definition lane (n num : N) (x : N * N) : Prop := valid n x.1 /\ x.2 < num.
Definition word (n num w : N) : Prop := w = minus1 \/ goodWord n num w.

Lemma fetchAddrs_shape c c' items : shape c c' -> fetchAddrs c' items = fetchAddrs c items.
Proof.
  intros (E1 & E2 & E3). induction items as [|[i h] items IH]; [done|]. cbn [fetchAddrs].
  rewrite (cell_shape c c' i h E1 E2), E3, IH. done.
Qed.

Lemma swaps_spec n items : forall c, WF n c -> Forall (lane n (hNum c)) items ->
  exists addrs bins' olds, fetchAddrs c items = Some addrs /\
    swapAll (hBins c) items addrs = Some (bins', olds) /\
    let c' := mkHasher (hNum c) (hRows c) bins' (hStash c) in
    WF n c' /\ shape c c' /\ length olds = length items /\
    Forall (word n (hNum c)) olds /\
    Permutation (stored c' ++ occ olds) (items.*1 ++ stored c).
Proof.
  induction items as [|[i h] items IH]; intros c W F.
  - exists [], (hBins c), []. destruct c. simpl. rewrite app_nil_r. done.
  - apply Forall_cons in F as [[V Hh] F]. cbn [fst snd] in V, Hh.
    destruct (put_spec n c i h W V Hh) as (c1 & old & Ep & W1 & Sh & Est & P & Ho).
    pose proof (sz_bins _ _ (wf_sized _ _ W)) as Hb.
    unfold put in Ep. cbn [fetchAddrs]. destruct (cell c i h) as [x|] eqn:Ex; [|done].
    destruct (N.eqb_spec (N.of_nat (length (hBins c))) 0); [lia|].
    set (a := x mod N.of_nat (length (hBins c))) in *.
    assert (a < N.of_nat (length (hBins c))) as Ha by (apply N.mod_lt; lia).
    destruct (hBins c !! N.to_nat a) as [o|] eqn:Eb; [|done]. injection Ep as Ec <-.
    destruct (IH c1 W1) as (addrs & bins' & olds & Ef & Es & W2 & Sh2 & L & F2 & P2).
    { by rewrite (proj1 Sh). }
    rewrite (fetchAddrs_shape c c1 items Sh) in Ef. rewrite Ef.
    exists (a :: addrs), bins', (o :: olds). split; [done|].
    cbn [swapAll]. assert (readN (hBins c) a = Some o) as -> by by apply readN_Some.
    assert (hBins c1 = <[N.to_nat a := binVal i h]> (hBins c)) as Eb1 by by subst c1.
    assert (hNum c1 = hNum c /\ hRows c1 = hRows c) as [En Er] by by subst c1.
    rewrite <- Eb1, Es. split; [done|].
    rewrite En, Er, Est in W2, Sh2, P2. rewrite En in F2.
    split; [done|]. split; [by eapply shape_trans|]. split; [simpl; by rewrite L|].
    split; [by constructor|]. rewrite occ_cons. rewrite fmap_cons. cbn [fst]. permN.
Qed.

Lemma occ_filter olds : occ olds = map binIdx (List.filter used olds).
Proof.
  induction olds as [|w olds IH]; [done|]. rewrite occ_cons, IH. simpl. unfold used at 2.
  destruct (binEmpty w) eqn:E; simpl.
  - apply binEmpty_true in E as ->. done.
  - by rewrite (occW_full w E).
Qed.

Lemma batchLoop_spec n tries : forall c idxs his r, WF n c ->
  length idxs = length his -> (r <= length idxs)%nat ->
  Forall (lane n (hNum c)) (take r (zip idxs his)) ->
  exists c' idxs' his' r', batchLoop tries c idxs his r = Some (c', idxs', his', r') /\
    WF n c' /\ shape c c' /\ hStash c' = hStash c /\
    length idxs' = length idxs /\ length his' = length his /\ (r' <= r)%nat /\
    Forall (lane n (hNum c)) (take r' (zip idxs' his')) /\
    Permutation (stored c' ++ (take r' (zip idxs' his')).*1) ((take r (zip idxs his)).*1 ++ stored c).
Proof.
  induction tries as [|tries IH]; intros c idxs his r W L Hr F.
  - assert (batchLoop 0 c idxs his r = Some (c, idxs, his, r)) as -> by by destruct r.
    exists c, idxs, his, r. split_and!; try done. permN.
  - destruct r as [|r'] eqn:Er.
    + exists c, idxs, his, 0%nat. split_and!; try done. permN.
    + rewrite <- Er in *. assert (r ≠ 0%nat) as Hr0 by lia. clear r' Er.
      assert (length (take r (zip idxs his)) = r) as Lz.
      { rewrite take_length, zip_with_length. lia. }
      assert (batchLoop (S tries) c idxs his r =
        match fetchAddrs c (take r (zip idxs his)) with
        | None => None
        | Some addrs =>
          match swapAll (hBins c) (take r (zip idxs his)) addrs with
          | None => None
          | Some (bins', olds) =>
              if hNum c =? 0 then None
              else
                let '(l, remaining') := compact (hNum c) r (mkLanes idxs his olds) in
                batchLoop tries (mkHasher (hNum c) (hRows c) bins' (hStash c))
                  (lIdx l) (lHash l) remaining'
          end
        end) as -> by (by destruct r).
      destruct (swaps_spec n (take r (zip idxs his)) c W F)
        as (addrs & bins' & olds & -> & -> & W1 & Sh & Lo & Fo & P).
      pose proof (sz_num _ _ (wf_sized _ _ W)) as [Hn1 Hn2].
      destruct (N.eqb_spec (hNum c) 0); [lia|].
      destruct (compact_spec (hNum c) idxs his olds L ltac:(lia)) as (l & Ec & L1 & L2 & T).
      rewrite Lo, Lz in Ec. rewrite Ec.
      set (c1 := mkHasher _ _ _ _) in *. set (r1 := length (List.filter used olds)) in *.
      assert (r1 <= r)%nat as Hr1.
      { unfold r1. pose proof (filter_len_le used olds). lia. }
      destruct (IH c1 (lIdx l) (lHash l) r1 W1) as (c' & idxs' & his' & r' & -> & W' & Sh' & Est & M1 & M2 & Hle & F' & P').
      * congruence.
      * lia.
      * change (zip (lIdx l) (lHash l)) with (zipped l). rewrite T.
        apply Forall_map, Forall_forall. intros w Hw. apply elem_of_list_In, filter_In in Hw as [Hw Hu].
        rewrite Forall_forall in Fo. destruct (Fo w) as [->|G]; [by apply elem_of_list_In|done|].
        destruct (goodWord_facts n (hNum c) w Hn2 G) as (_ & V & _).
        split; [done|]. cbn [dec snd]. apply N.mod_lt. done.
      * exists c', idxs', his', r'. split; [done|]. split; [done|]. split; [by eapply shape_trans|].
        split; [done|]. split; [congruence|]. split; [congruence|]. split; [lia|]. split; [done|].
        change (zip (lIdx l) (lHash l)) with (zipped l) in P'. rewrite T in P'.
        assert ((map (dec (hNum c)) (List.filter used olds)).*1 = occ olds) as Eo.
        { rewrite occ_filter. change (fmap fst ?l) with (map fst l). by rewrite map_map. }
        rewrite Eo in P'. permN.
Qed.

(** ** The stash *)

Definition stashOK (n num : N) (st : list N) : Prop :=
  exists ws k, st = ws ++ replicate k minus1 /\ Forall (goodWord n num) ws.

Lemma stashOK_cons n num w st : goodWord n num w -> stashOK n num st -> stashOK n num (w :: st).
Proof. intros G (ws & k & -> & F). exists (w :: ws), k. split; [done|by constructor]. Qed.

Lemma stashOK_inv n num w st : num <= 256 -> stashOK n num (w :: st) -> word n num w /\ stashOK n num st.
Proof.
  intros Hn ([|w' ws] & k & E & F).
  - destruct k as [|k]; [done|]. injection E as -> ->. split; [by left|]. by exists [], k.
  - injection E as -> ->. apply Forall_cons in F as [G F]. split; [by right|]. by exists ws, k.
Qed.

Lemma hand_split (idxs his : list N) i r : length idxs = length his -> (r <= length idxs)%nat -> (i < r)%nat ->
  exists a b, idxs !! i = Some a /\ his !! i = Some b /\
    drop i (take r (zip idxs his)) = (a, b) :: drop (S i) (take r (zip idxs his)).
Proof.
  intros L Hr Hi. destruct (lookup_lt_is_Some_2 idxs i) as [a Ha]; [lia|].
  destruct (lookup_lt_is_Some_2 his i) as [b Hb]; [lia|].
  exists a, b. split; [done|]. split; [done|]. apply drop_S.
  rewrite lookup_take by lia. apply lookup_zip_with_Some. by exists a, b.
Qed.

Lemma hand_insert (idxs his : list N) i r x y : length idxs = length his -> (r <= length idxs)%nat -> (i < r)%nat ->
  drop (S i) (take r (zip (<[i := x]> idxs) (<[i := y]> his))) = drop (S i) (take r (zip idxs his)) /\
  drop i (take r (zip (<[i := x]> idxs) (<[i := y]> his))) = (x, y) :: drop (S i) (take r (zip idxs his)).
Proof.
  intros L Hr Hi.
  assert (drop (S i) (take r (zip (<[i := x]> idxs) (<[i := y]> his))) = drop (S i) (take r (zip idxs his))) as E.
  { rewrite <- insert_zip_with, !skipn_firstn_comm, drop_insert_lt by lia. done. }
  split; [done|].
  destruct (hand_split (<[i := x]> idxs) (<[i := y]> his) i r) as (a & b & Ha & Hb & Es);
    rewrite ?insert_length; try done.
  rewrite list_lookup_insert in Ha by lia. rewrite list_lookup_insert in Hb by lia.
  injection Ha as <-. injection Hb as <-. by rewrite Es, E.
Qed.

Lemma batchStash_spec n num st : num <= 256 -> forall idxs his i r,
  stashOK n num st -> length idxs = length his -> (r <= length idxs)%nat -> (i <= r)%nat ->
  Forall (lane n num) (drop i (take r (zip idxs his))) ->
  exists st' out over lost, batchStash st idxs his i r = (st', out, over) /\
    stashOK n num st' /\ length st' = length st /\ length out = length idxs /\
    Permutation (occ st' ++ lost) (occ st ++ (drop i (take r (zip idxs his))).*1) /\
    (over = true -> lost ≠ [] /\ minus1 ∉ st') /\ (over = false -> lost = []) /\
    (length lost <= r - i)%nat.
Proof.
  intros Hn. induction st as [|w st IH]; intros idxs his i r Ok L Hr Hi F.
  - assert (length (drop i (take r (zip idxs his))) = (r - i)%nat) as Lh
      by (rewrite drop_length, take_length, zip_with_length; lia).
    cbn [batchStash]. destruct (r - i)%nat as [|k] eqn:Ek.
    + exists [], idxs, false, []. split_and!; try done.
      destruct (drop i (take r (zip idxs his))); done.
    + exists [], idxs, true, (drop i (take r (zip idxs his))).*1.
      split_and!; try done; [|rewrite fmap_length; lia].
      intros _. destruct (drop i (take r (zip idxs his))); [done|]. split; [done|]. apply not_elem_of_nil.
  - cbn [batchStash]. destruct (r - i)%nat as [|k] eqn:Ek.
    + exists (w :: st), idxs, false, []. split_and!; try done.
      rewrite drop_ge by (rewrite take_length; lia). done.
    + destruct (hand_split idxs his i r L Hr ltac:(lia)) as (a & b & Ha & Hb & Ed).
      rewrite Ha, Hb. cbn [default]. rewrite Ed in F. apply Forall_cons in F as [[V Hh] F]. cbn [fst snd] in V, Hh.
      apply stashOK_inv in Ok as [Wd Ok]; [|done].
      assert (occW (binVal a b) = [a]) as Eab.
      { rewrite occW_full by (apply binVal_not_empty; [apply V|lia]). by rewrite binIdx_val by (destruct V; lia). }
      assert (goodWord n num (binVal a b)) as Gab by by apply goodWord_val.
      assert (binVal a b ≠ minus1) as Hne.
      { intros E. apply binEmpty_true in E. by rewrite binVal_not_empty in E by (destruct V; lia). }
      destruct (binEmpty w) eqn:Ew.
      * apply binEmpty_true in Ew as ->.
        destruct (hand_insert idxs his i r minus1 minus1 L Hr ltac:(lia)) as [E1 _].
        destruct (IH (<[i := minus1]> idxs) (<[i := minus1]> his) (S i) r Ok) as
          (st' & out & over & lost & -> & Ok' & L1 & L2 & P & Q1 & Q2 & Q3); rewrite ?insert_length; try lia.
        { by rewrite E1. }
        rewrite E1 in P.
        exists (binVal a b :: st'), out, over, lost. split; [done|].
        split; [by apply stashOK_cons|]. split; [simpl; lia|]. rewrite insert_length in L2. split; [done|].
        split; [|split; [|split; [done|lia]]].
        -- rewrite Ed, !occ_cons, Eab, fmap_cons, occW_empty. cbn [fst]. permN.
        -- intros Ho. destruct (Q1 Ho) as [? Hin]. split; [done|].
           intros Hc. apply elem_of_cons in Hc as [Hc|Hc]; [by apply Hne|done].
      * destruct Wd as [->|G]; [done|].
        destruct (goodWord_facts n num w Hn G) as (_ & Vw & Hw & _).
        destruct (hand_insert idxs his i r (binIdx w) (binHash w) L Hr ltac:(lia)) as [E1 E2].
        destruct (IH (<[i := binIdx w]> idxs) (<[i := binHash w]> his) i r Ok) as
          (st' & out & over & lost & -> & Ok' & L1 & L2 & P & Q1 & Q2 & Q3); rewrite ?insert_length; try lia.
        { rewrite E2. by constructor. }
        rewrite E2 in P.
        exists (binVal a b :: st'), out, over, lost. split; [done|].
        split; [by apply stashOK_cons|]. split; [simpl; lia|]. rewrite insert_length in L2. split; [done|].
        split; [|split; [|split; [done|lia]]].
        -- rewrite Ed, !occ_cons, Eab, (occW_full w Ew). rewrite fmap_cons in P |- *. cbn [fst] in *. permN.
        -- intros Ho. destruct (Q1 Ho) as [? Hin]. split; [done|].
           intros Hc. apply elem_of_cons in Hc as [Hc|Hc]; [by apply Hne|done].
Qed.
