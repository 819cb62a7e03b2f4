(** Proofs about the model of [CuckooHasher]: lookups. *)
From stdpp Require Import sets.
From Verif Require Import Base CuckooHasher_Model CuckooHasher_Spec CuckooHasher_Proofs
  CuckooHasher_Proofs2 CuckooHasher_Proofs3.

(** ** Comparisons *)

(** [T] decides whether the row of an inserted item is [q]. *)
Definition exact (items : list (N * list N)) (q : list N) (T : N -> option bool) : Prop :=
  forall i row, (i, row) ∈ items -> T i = Some (bool_decide (row = q)).

Lemma item_facts n c items i row : Inv n c items -> (i, row) ∈ items ->
  valid n i /\ N.of_nat (length row) = hNum c /\ hasRow c i row.
Proof. intros I H. pose proof (inv_items _ _ _ I) as F. rewrite Forall_forall in F. exact (F _ H). Qed.

Lemma match2_exact n c items q0 q1 : Inv n c items -> hNum c = 2 ->
  exact items [q0; q1] (fun i => match2 c i q0 q1).
Proof.
  intros I E i row H. destruct (item_facts n c items i row I H) as (V & L & R).
  rewrite E in L. destruct row as [|x [|y [|]]]; try (simpl in L; lia).
  pose proof (R 0 ltac:(lia)) as R0. pose proof (R 1 ltac:(lia)) as R1.
  change (N.to_nat 0) with 0%nat in R0. change (N.to_nat 1) with 1%nat in R1. simpl in R0, R1.
  unfold match2. rewrite R0, R1. destruct (N.eqb_spec x q0) as [->|Hn].
  - f_equal. destruct (N.eqb_spec y q1) as [->|Hn].
    + by rewrite bool_decide_true.
    + rewrite bool_decide_false; [done|]. congruence.
  - rewrite bool_decide_false; [done|]. congruence.
Qed.

Lemma matchRow_spec c i q : forall j row, j + N.of_nat (length q) <= hNum c ->
  (forall k, k < hNum c -> cell c i k = row !! N.to_nat k) ->
  N.of_nat (length row) = hNum c ->
  matchRow c i j q = Some (bool_decide (take (length q) (drop (N.to_nat j) row) = q)).
Proof.
  induction q as [|x q IH]; intros j row Hj R L; cbn [matchRow].
  - by rewrite bool_decide_true.
  - simpl length in *. destruct (lookup_lt_is_Some_2 row (N.to_nat j)) as [y Hy]; [lia|].
    rewrite R by lia. rewrite Hy, (IH (j + 1) row) by (try lia; done).
    rewrite (drop_S _ _ _ Hy). cbn [take]. replace (N.to_nat (j + 1)) with (S (N.to_nat j)) by lia.
    f_equal. destruct (N.eqb_spec y x) as [->|Hn]; cbn [andb].
    + apply bool_decide_ext. split; [by intros ->|]. intros E. by injection E.
    + rewrite bool_decide_false; [done|]. congruence.
Qed.

Lemma matchRow_exact n c items q : Inv n c items -> N.of_nat (length q) = hNum c ->
  exact items q (fun i => matchRow c i 0 q).
Proof.
  intros I Lq i row H. destruct (item_facts n c items i row I H) as (V & L & R).
  rewrite (matchRow_spec c i q 0 row); [|lia|exact R|done].
  rewrite drop_0, take_ge by lia. done.
Qed.

(** ** Looking at words *)

(** A word of the table: empty or the entry of an inserted item. *)
Definition entry (items : list (N * list N)) (w : N) : Prop :=
  w = minus1 \/ (binEmpty w = false /\ binIdx w ∈ items.*1).

(** The word is not an entry of an item with row [q]. *)
Definition miss (items : list (N * list N)) (q : list N) (w : N) : Prop :=
  binEmpty w = false -> (binIdx w, q) ∉ items.

Lemma probe_spec items q T w : NoDup items.*1 -> exact items q T -> entry items w ->
  (probeWord T w = Some None /\ miss items q w) \/
  (probeWord T w = Some (Some (binIdx w)) /\ (binIdx w, q) ∈ items /\ binEmpty w = false).
Proof.
  intros ND Ex [->|[E Hi]]; unfold probeWord.
  - left. rewrite binEmpty_minus1. split; [done|]. by intros H.
  - rewrite E. apply elem_of_list_fmap in Hi as ([i row] & Ei & Hi). cbn [fst] in Ei. subst i.
    rewrite (Ex _ _ Hi). case_bool_decide as Eq.
    + subst. right. done.
    + left. split; [done|]. intros _ Hc. apply Eq. by eapply (NoDup_fst_inj items).
Qed.

Lemma bins_entry n c items a w : Inv n c items -> hBins c !! a = Some w -> entry items w.
Proof.
  intros I H. destruct (binEmpty w) eqn:E; [left; by apply binEmpty_true|right].
  split; [done|]. rewrite <- (inv_stored _ _ _ I). unfold stored. apply elem_of_app. left.
  apply occ_elem. by exists a, w.
Qed.
Lemma stash_entry n c items a w : Inv n c items -> hStash c !! a = Some w -> entry items w.
Proof.
  intros I H. destruct (binEmpty w) eqn:E; [left; by apply binEmpty_true|right].
  split; [done|]. rewrite <- (inv_stored _ _ _ I). unfold stored. apply elem_of_app. right.
  apply occ_elem. by exists a, w.
Qed.

Lemma binAt_ok n c items h : Inv n c items ->
  exists w, binAt c h = Some w /\ entry items w /\
    hBins c !! N.to_nat (h mod N.of_nat (length (hBins c))) = Some w.
Proof.
  intros I. pose proof (sz_bins _ _ (wf_sized _ _ (inv_wf _ _ _ I))) as Hb.
  unfold binAt. destruct (N.eqb_spec (N.of_nat (length (hBins c))) 0); [lia|].
  assert (h mod N.of_nat (length (hBins c)) < N.of_nat (length (hBins c))) as Ha by (apply N.mod_lt; lia).
  destruct (lookup_lt_is_Some_2 (hBins c) (N.to_nat (h mod N.of_nat (length (hBins c))))) as [w Hw]; [lia|].
  exists w. split; [by apply readN_Some|]. split; [by eapply bins_entry|done].
Qed.

(** No entry of row [q] in the stash part that is looked at. *)
Definition missAll (items : list (N * list N)) (q : list N) (st : list N) : Prop :=
  Forall (miss items q) st.

Lemma missAll_replicate items q k : missAll items q (replicate k minus1).
Proof. apply Forall_replicate. intros H. by rewrite binEmpty_minus1 in H. Qed.

Lemma findStash_spec items q T n num st : num <= 256 -> NoDup items.*1 -> exact items q T ->
  stashOK n num st -> Forall (entry items) st ->
  exists r, findStash T st = Done r /\
    ((r, q) ∈ items \/ (r = minus1 /\ missAll items q st)).
Proof.
  intros Hn ND Ex Ok F. induction st as [|w st IH]; cbn [findStash].
  - exists minus1. split; [done|]. right. split; [done|constructor].
  - apply Forall_cons in F as [Ew F]. destruct (binEmpty w) eqn:E.
    + exists minus1. split; [done|]. right. split; [done|]. apply binEmpty_true in E as ->.
      destruct Ok as ([|w' ws] & k & Es & Fw).
      * simpl in Es. unfold missAll. rewrite Es. apply missAll_replicate.
      * injection Es as <- _. apply Forall_cons in Fw as [G _].
        destruct (goodWord_facts n num _ Hn G) as (E & _). by rewrite binEmpty_minus1 in E.
    + apply stashOK_inv in Ok as [_ Ok]; [|done].
      destruct (probe_spec items q T w ND Ex Ew) as [[-> M]|(-> & Hin & _)].
      * destruct (IH Ok F) as (r & -> & [H|[-> M']]); eexists; (split; [done|]); [by left|right].
        split; [done|]. by constructor.
      * eexists. split; [done|]. by left.
Qed.

Lemma findBins_spec n c items q T hs : Inv n c items -> exact items q T ->
  exists r, findBins c T hs = Done r /\
    ((r, q) ∈ items \/ (r = minus1 /\ missAll items q (hStash c) /\
       forall h, h ∈ hs -> exists w, hBins c !! N.to_nat (h mod N.of_nat (length (hBins c))) = Some w /\ miss items q w)).
Proof.
  intros I Ex. pose proof (sz_num _ _ (wf_sized _ _ (inv_wf _ _ _ I))) as Hn.
  induction hs as [|h hs IH]; cbn [findBins].
  - destruct (findStash_spec items q T n (hNum c) (hStash c)) as (r & -> & H); [lia|apply I|done| | |].
    + exact (wf_stash _ _ (inv_wf _ _ _ I)).
    + apply Forall_lookup_2. intros a w. by apply (stash_entry n c).
    + exists r. split; [done|]. destruct H as [H|[-> H]]; [by left|right].
      split; [done|]. split; [done|]. intros h Hh. by apply elem_of_nil in Hh.
  - destruct (binAt_ok n c items h I) as (w & -> & Ew & Hw).
    destruct (probe_spec items q T w (inv_nodup _ _ _ I) Ex Ew) as [[-> M]|(-> & Hin & _)].
    + destruct IH as (r & -> & [H|(-> & M' & Hs)]); eexists; (split; [done|]); [by left|right].
      split; [done|]. split; [done|]. intros h' Hh'. apply elem_of_cons in Hh' as [->|Hh']; [by exists w|by apply Hs].
    + eexists. split; [done|]. by left.
Qed.

(** An inserted item is met by a search of all its bins and the stash. *)
Lemma search_complete n c items i q : Inv n c items -> (i, q) ∈ items ->
  missAll items q (hStash c) ->
  (forall h, h ∈ q -> exists w, hBins c !! N.to_nat (h mod N.of_nat (length (hBins c))) = Some w /\ miss items q w) ->
  False.
Proof.
  intros I H Ms Mb. destruct (item_facts n c items i q I H) as (V & L & R).
  assert (i ∈ stored c) as Hs.
  { rewrite (inv_stored _ _ _ I). by apply (elem_of_list_fmap_1 fst _ (i, q)). }
  pose proof (sz_num _ _ (wf_sized _ _ (inv_wf _ _ _ I))) as Hn.
  unfold stored in Hs. apply elem_of_app in Hs as [Hs|Hs]; apply occ_elem in Hs as (a & w & Hw & E & Ei).
  - destruct (wf_bins _ _ (inv_wf _ _ _ I) a w Hw) as [->|[G (x & Hx & Ha)]]; [by rewrite binEmpty_minus1 in E|].
    destruct (goodWord_facts n (hNum c) w ltac:(lia) G) as (_ & _ & Hh & _).
    rewrite Ei, (R _ Hh) in Hx. destruct (Mb x) as (w' & Hw' & M); [by eapply elem_of_list_lookup_2|].
    rewrite Ha, Nat2N.id, Hw in Hw'. injection Hw' as <-. apply (M E). by rewrite Ei.
  - unfold missAll in Ms. rewrite Forall_lookup in Ms. apply (Ms a w Hw E). by rewrite Ei.
Qed.

Lemma answers_intro n c items q r : Inv n c items ->
  ((r, q) ∈ items \/ (r = minus1 /\ missAll items q (hStash c) /\
     forall h, h ∈ q -> exists w, hBins c !! N.to_nat (h mod N.of_nat (length (hBins c))) = Some w /\ miss items q w)) ->
  answers items q r.
Proof.
  intros I [H|(-> & Ms & Mb)]; [by left|right]. split; [done|].
  intros Hq. apply elem_of_list_fmap in Hq as ([i q'] & E & Hi). cbn [snd] in E. subst q'.
  by eapply search_complete.
Qed.

Lemma find_spec n c items q : Inv n c items -> N.of_nat (length q) = hNum c ->
  exists r, find c q = Done r /\ answers items q r.
Proof.
  intros I L. unfold find. destruct (N.eqb_spec (hNum c) 2) as [E|E].
  - rewrite E in L. destruct q as [|q0 [|q1 [|]]]; try (simpl in L; lia).
    change (readN [q0; q1] 0) with (Some q0). change (readN [q0; q1] 1) with (Some q1).
    destruct (findBins_spec n c items [q0; q1] (fun i => match2 c i q0 q1) [q0; q1] I
                (match2_exact n c items q0 q1 I E)) as (r & Ef & H).
    exists r. split; [|by eapply answers_intro].
    cbn [findBins] in Ef. destruct (binAt_ok n c items q0 I) as (v0 & E0 & _).
    destruct (binAt_ok n c items q1 I) as (v1 & E1 & _). rewrite E0, E1 in *.
    destruct (probeWord _ v0) as [[i0|]|]; try done.
  - destruct (Nat.ltb_spec (length q) (N.to_nat (hNum c))); [lia|].
    rewrite take_ge by lia.
    destruct (findBins_spec n c items q (fun i => matchRow c i 0 q) q I (matchRow_exact n c items q I L)) as (r & -> & Hr).
    exists r. split; [done|]. by eapply answers_intro.
Qed.

(** ** Batch lookup *)

Lemma simpleFindStash_spec items q T n num : num <= 256 -> NoDup items.*1 -> exact items q T ->
  forall st res, stashOK n num st -> Forall (entry items) st ->
  exists r, simpleFindStash T st res = Done r /\
    ((r, q) ∈ items \/ (r = res /\ missAll items q st)).
Proof.
  intros Hn ND Ex. induction st as [|w st IH]; intros res Ok F; cbn [simpleFindStash].
  - exists res. split; [done|]. right. split; [done|constructor].
  - apply Forall_cons in F as [Ew F]. destruct (binEmpty w) eqn:E.
    + exists res. split; [done|]. right. split; [done|]. apply binEmpty_true in E as ->.
      destruct Ok as ([|w' ws] & k & Es & Fw).
      * simpl in Es. unfold missAll. rewrite Es. apply missAll_replicate.
      * injection Es as <- _. apply Forall_cons in Fw as [G _].
        destruct (goodWord_facts n num _ Hn G) as (E & _). by rewrite binEmpty_minus1 in E.
    + apply stashOK_inv in Ok as [_ Ok]; [|done].
      destruct (probe_spec items q T w ND Ex Ew) as [[-> M]|(-> & Hin & _)]; cbn [from_option id].
      * destruct (IH res Ok F) as (r & -> & [H|[-> M']]); eexists; (split; [done|]); [by left|right].
        split; [done|]. by constructor.
      * destruct (IH (binIdx w) Ok F) as (r & -> & [H|[-> M']]); eexists; (split; [done|]); [by left|by left].
Qed.

Lemma batchBins_spec n c items q0 q1 : Inv n c items -> hNum c = 2 ->
  exists r, batchBins c (q0, q1) = Some r /\
    ((r, [q0; q1]) ∈ items \/ (r = minus1 /\
       forall h, h ∈ [q0; q1] -> exists w, hBins c !! N.to_nat (h mod N.of_nat (length (hBins c))) = Some w /\ miss items [q0; q1] w)).
Proof.
  intros I E. pose proof (match2_exact n c items q0 q1 I E) as Ex.
  unfold batchBins. cbn [fst snd].
  destruct (binAt_ok n c items q0 I) as (v0 & -> & E0 & H0).
  destruct (binAt_ok n c items q1 I) as (v1 & -> & E1 & H1).
  destruct (probe_spec items _ _ v0 (inv_nodup _ _ _ I) Ex E0) as [[-> M0]|(-> & P0 & _)];
  destruct (probe_spec items _ _ v1 (inv_nodup _ _ _ I) Ex E1) as [[-> M1]|(-> & P1 & _)];
    cbn [default]; eexists; (split; [done|]); [right|by left|by left|by left].
  split; [done|]. intros h Hh. apply elem_of_cons in Hh as [->|Hh]; [by exists v0|].
  apply elem_of_list_singleton in Hh as ->. by exists v1.
Qed.

Lemma probe_total items q T w : NoDup items.*1 -> exact items q T -> entry items w ->
  exists r, probeWord T w = Some r.
Proof. intros ND Ex Ew. destruct (probe_spec items q T w ND Ex Ew) as [[-> _]|(-> & _)]; eauto. Qed.

Lemma stashRow_spec n c items w : Inv n c items -> hNum c = 2 -> entry items w -> forall qs out,
  length out = length qs ->
  exists out', stashRow c w qs out = Some out' /\ length out' = length qs /\
    forall k q o, qs !! k = Some q -> out !! k = Some o ->
      exists r, probeWord (fun i => match2 c i q.1 q.2) w = Some r /\ out' !! k = Some (default o r).
Proof.
  intros I E Ew. induction qs as [|q qs IH]; intros [|o out] L; try (simpl in L; lia); cbn [stashRow].
  - exists []. split; [done|]. split; [done|]. by intros k q o Hq.
  - destruct q as [q0 q1]. cbn [fst snd].
    destruct (probe_total items [q0; q1] _ w (inv_nodup _ _ _ I) (match2_exact n c items q0 q1 I E) Ew) as (r & Er).
    rewrite Er. destruct (IH out) as (out' & -> & L' & H); [simpl in L; lia|].
    eexists. split; [done|]. split; [simpl; lia|].
    intros [|k] q o' Hq Ho; [|by apply (H k q o')]. injection Hq as <-. injection Ho as <-. by exists r.
Qed.

(** The stash part of [findBatch], row by row. *)
Lemma batchFindStash_spec n c items st : Inv n c items -> hNum c = 2 -> Forall (entry items) st -> forall qs out,
  length out = length qs ->
  exists out', batchFindStash c st qs out = Some out' /\ length out' = length qs /\
    forall k q o, qs !! k = Some q -> out !! k = Some o ->
      exists r, simpleFindStash (fun i => match2 c i q.1 q.2) st o = Done r /\ out' !! k = Some r.
Proof.
  intros I E F. induction st as [|w st IH]; intros qs out L; cbn [batchFindStash].
  - exists out. split; [done|]. split; [done|]. intros k q o _ Ho. by exists o.
  - apply Forall_cons in F as [Ew F]. destruct (binEmpty w) eqn:Eb.
    + exists out. split; [done|]. split; [done|]. intros k q o _ Ho. exists o. cbn [simpleFindStash]. by rewrite Eb.
    + destruct (stashRow_spec n c items w I E Ew qs out L) as (out1 & -> & L1 & H1).
      destruct (IH F qs out1 L1) as (out' & -> & L' & H').
      exists out'. split; [done|]. split; [done|]. intros k q o Hq Ho.
      destruct (H1 k q o Hq Ho) as (r1 & Er & Ho1). destruct (H' k q _ Hq Ho1) as (r & Es & Hr).
      exists r. split; [|done]. cbn [simpleFindStash]. by rewrite Eb, Er.
Qed.

Lemma batchAllBins_spec n c items qs : Inv n c items -> hNum c = 2 ->
  exists out, batchAllBins c qs = Some out /\ length out = length qs /\
    forall k q, qs !! k = Some q -> exists o, out !! k = Some o /\ batchBins c q = Some o.
Proof.
  intros I E. induction qs as [|q qs IH]; cbn [batchAllBins].
  - exists []. split; [done|]. split; [done|]. by intros k q Hq.
  - destruct IH as (out & -> & L & H). destruct q as [q0 q1].
    destruct (batchBins_spec n c items q0 q1 I E) as (r & Er & _). rewrite Er.
    eexists. split; [done|]. split; [simpl; lia|].
    intros [|k] q Hq; [|by apply H]. injection Hq as <-. by exists r.
Qed.

Lemma findBatch_spec n c items ws cap qs : Inv n c items -> hNum c = 2 ->
  (length qs <= ws)%nat -> (length qs <= cap)%nat ->
  exists out, findBatch c ws cap qs = Done out /\ length out = length qs /\
    forall k q0 q1 r, qs !! k = Some (q0, q1) -> out !! k = Some r -> answers items [q0; q1] r.
Proof.
  intros I E Hw Hc. unfold findBatch. rewrite E, N.eqb_refl.
  destruct (Nat.ltb_spec ws (length qs)); [lia|]. destruct (Nat.ltb_spec cap (length qs)); [lia|]. cbn [orb].
  destruct (batchAllBins_spec n c items qs I E) as (out & -> & L & Hb0).
  assert (Forall (entry items) (hStash c)) as Fs.
  { apply Forall_lookup_2. intros a w. by apply (stash_entry n c). }
  destruct (batchFindStash_spec n c items (hStash c) I E Fs qs out L) as (out' & -> & L' & H').
  exists out'. split; [done|]. split; [done|]. intros k q0 q1 r Hq Hr.
  destruct (Hb0 k _ Hq) as (o & Ho & Eb). destruct (H' k _ _ Hq Ho) as (r' & Es & Hr').
  rewrite Hr in Hr'. injection Hr' as <-. cbn [fst snd] in Es.
  destruct (batchBins_spec n c items q0 q1 I E) as (o' & Eb' & Hb). rewrite Eb in Eb'. injection Eb' as <-.
  destruct (simpleFindStash_spec items [q0; q1] _ n (hNum c) ltac:(lia) (inv_nodup _ _ _ I)
              (match2_exact n c items q0 q1 I E) (hStash c) o (wf_stash _ _ (inv_wf _ _ _ I)) Fs) as (r2 & Es2 & Hs).
  rewrite Es in Es2. injection Es2 as <-.
  apply (answers_intro n c); [done|].
  destruct Hs as [Hs|[-> Ms]]; [by left|]. destruct Hb as [Hb|[-> Mb]]; [by left|by right].
Qed.

Lemma answers_fun items q r1 r2 : NoDup items.*2 -> answers items q r1 -> answers items q r2 -> r1 = r2.
Proof.
  intros ND [H1|[-> N1]] [H2|[-> N2]]; [| | |done].
  - assert (NoDup (map (fun x => (x.2, x.1)) items).*1) as ND2.
    { change (fmap fst ?l) with (map fst l). rewrite map_map. exact ND. }
    eapply (NoDup_fst_inj _ q r1 r2 ND2).
    + apply elem_of_list_In, in_map_iff. exists (r1, q). by split; [|apply elem_of_list_In].
    + apply elem_of_list_In, in_map_iff. exists (r2, q). by split; [|apply elem_of_list_In].
  - exfalso. apply N2. by apply (elem_of_list_fmap_1 snd _ (r1, q)).
  - exfalso. apply N1. by apply (elem_of_list_fmap_1 snd _ (r2, q)).
Qed.

(** ** [SimpleCuckoo] *)

Lemma simpleFindBins_spec n c items q T hs : Inv n c items -> exact items q T ->
  exists r, simpleFindBins c T hs = Done r /\
    ((r, q) ∈ items \/ (r = minus1 /\
       forall h, h ∈ hs -> exists w, hBins c !! N.to_nat (h mod N.of_nat (length (hBins c))) = Some w /\ miss items q w)).
Proof.
  intros I Ex. induction hs as [|h hs IH]; cbn [simpleFindBins].
  - exists minus1. split; [done|]. right. split; [done|]. intros h Hh. by apply elem_of_nil in Hh.
  - destruct (binAt_ok n c items h I) as (w & -> & Ew & Hw).
    destruct (probe_spec items q T w (inv_nodup _ _ _ I) Ex Ew) as [[-> M]|(-> & Hin & _)].
    + destruct IH as (r & -> & [H|(-> & Hs)]); eexists; (split; [done|]); [by left|right].
      split; [done|]. intros h' Hh'. apply elem_of_cons in Hh' as [->|Hh']; [by exists w|by apply Hs].
    + eexists. split; [done|]. by left.
Qed.

Lemma simpleFindOne_spec n c items q : Inv n c items -> N.of_nat (length q) = hNum c ->
  exists r, simpleFindOne c q = Done r /\ answers items q r.
Proof.
  intros I L. unfold simpleFindOne.
  pose proof (sz_num _ _ (wf_sized _ _ (inv_wf _ _ _ I))) as Hn.
  assert (Forall (entry items) (hStash c)) as Fs.
  { apply Forall_lookup_2. intros a w. by apply (stash_entry n c). }
  assert (forall r T, exact items q T -> ((r, q) ∈ items \/ (r = minus1 /\
       forall h, h ∈ q -> exists w, hBins c !! N.to_nat (h mod N.of_nat (length (hBins c))) = Some w /\ miss items q w)) ->
    exists r', (if r =? minus1 then simpleFindStash T (hStash c) minus1 else Done r) = Done r' /\ answers items q r') as Fin.
  { intros r T Ex Hr. destruct (N.eqb_spec r minus1) as [->|Hne].
    - destruct (simpleFindStash_spec items q T n (hNum c) ltac:(lia) (inv_nodup _ _ _ I) Ex (hStash c) minus1
                  (wf_stash _ _ (inv_wf _ _ _ I)) Fs) as (r' & -> & Hs).
      exists r'. split; [done|]. apply (answers_intro n c); [done|].
      destruct Hs as [Hs|[-> Ms]]; [by left|]. destruct Hr as [Hb|[_ Mb]]; [by left|by right].
    - exists r. split; [done|]. left. by destruct Hr as [?|[? _]]. }
  destruct (N.eqb_spec (hNum c) 2) as [E|E].
  - rewrite E in L. destruct q as [|q0 [|q1 [|]]]; try (simpl in L; lia).
    change (readN [q0; q1] 0) with (Some q0). change (readN [q0; q1] 1) with (Some q1). cbn [default].
    destruct (batchBins_spec n c items q0 q1 I E) as (r & -> & Hr).
    apply Fin; [by apply (match2_exact n c)|done].
  - destruct (simpleFindBins_spec n c items q (fun i => matchRow c i 0 q) q I (matchRow_exact n c items q I L)) as (r & -> & Hr).
    apply Fin; [by apply (matchRow_exact n c)|done].
Qed.

Lemma simpleFindBatch_spec n c items qs : Inv n c items -> Forall (fun q => N.of_nat (length q) = hNum c) qs ->
  exists out, simpleFindBatch c qs = Done out /\ Forall2 (answers items) qs out.
Proof.
  intros I. induction 1 as [|q qs L F IH]; cbn [simpleFindBatch].
  - exists []. split; [done|constructor].
  - destruct IH as (out & -> & H). destruct (simpleFindOne_spec n c items q I L) as (r & -> & Hr).
    exists (r :: out). split; [done|by constructor].
Qed.

Lemma simpleInsertBatch_spec n c items ws its : Inv n c items -> (length its <= ws)%nat ->
  minus1 ∉ hStash c ->
  NoDup (items ++ its).*1 -> Forall (fun x => valid n x.1 /\ N.of_nat (length x.2) = hNum c) its ->
  exists c', simpleInsertBatch c ws its.*1 (concat its.*2) = Done c' /\ Inv n c' (items ++ its) /\
    hNum c' = hNum c /\ length (hBins c') = length (hBins c) /\ minus1 ∉ hStash c'.
Proof.
  intros I Hws Hf ND F.
  destruct (batch_common n c items its I ND F) as
    (rows' & c1 & idxs' & his' & r & Es & El & W & Sh & Est & L1 & L2 & Hr & Fl & P & Fi & Ho).
  pose proof (sz_num _ _ (wf_sized _ _ (inv_wf _ _ _ I))) as Hn.
  unfold simpleInsertBatch. rewrite fmap_length. destruct (Nat.ltb_spec ws (length its)); [lia|].
  rewrite Es. change (mkHasher (hNum c) rows' (hBins c) (hStash c)) with (withRows c rows'). rewrite El.
  assert (hNum c1 = hNum c) as En by apply Sh.
  set (new := map (fun x : N * N => binVal x.1 x.2) (take r (zip idxs' his'))).
  set (c2 := mkHasher (hNum c1) (hRows c1) (hBins c1) (hStash c1 ++ new)).
  assert (Forall (goodWord n (hNum c)) new) as Gn.
  { apply Forall_map. eapply Forall_impl; [exact Fl|]. intros [a b] [V Hh]. by apply goodWord_val. }
  assert (occ new = (take r (zip idxs' his')).*1) as En2.
  { unfold new. clear -Fl Hn. induction (take r (zip idxs' his')) as [|[a b] l IH]; [done|].
    apply Forall_cons in Fl as [[V Hh] Fl]. cbn [fst snd] in V, Hh. rewrite map_cons, occ_cons, IH by done.
    cbn [fst snd]. rewrite occW_full by (apply binVal_not_empty; [apply V|lia]).
    rewrite binIdx_val by (destruct V; lia). done. }
  exists c2. split; [done|].
  destruct (wf_stash _ _ W) as (wsl & k & E & Fw).
  assert (k = 0%nat) as ->.
  { rewrite Est in E. rewrite E in Hf. by apply (stash_full_shape n (hNum c1)) in Hf; [|lia|]. }
  rewrite app_nil_r in E.
  assert (Forall (goodWord n (hNum c)) (hStash c1 ++ new)) as Gs.
  { apply Forall_app. split; [|done]. rewrite E. by rewrite En in Fw. }
  split; [|split; [done|split; [by apply Sh|]]].
  - eapply (Inv_shape n c1 c2); [|done| |done|].
    + constructor; [by eapply Sized_shape, (wf_sized _ _ W)|exact (wf_bins _ _ W)|].
      exists (hStash c1 ++ new), 0%nat. split; [by rewrite app_nil_r|]. cbn [c2 hNum]. by rewrite En.
    + unfold stored in *. cbn [c2 hBins hStash]. rewrite occ_app, En2. permN.
    + by rewrite En.
  - apply (goodWords_nonempty n (hNum c)); [lia|done].
Qed.

Lemma simpleInit_Inv n num bins : legalSize n num bins ->
  Inv n (simpleInit n num bins constructed) [].
Proof.
  intros (Hb & Hn & Hs). unfold simpleInit, constructed. cbn [hRows hBins hStash].
  rewrite !resize_nil. constructor; [|constructor|constructor|].
  - constructor.
    + constructor; cbn [hRows hBins hNum]; rewrite ?replicate_length; lia.
    + intros a w Hw. left. by apply lookup_replicate in Hw as [-> _].
    + by exists [], 0%nat.
  - unfold stored. cbn [hBins hStash]. by rewrite !occ_replicate.
Qed.

Lemma simpleRun_spec n bs : forall c items, Inv n c items -> minus1 ∉ hStash c ->
  legalItems n (hNum c) (items ++ concat bs.*2) -> Forall (fun b => (length b.2 <= b.1)%nat) bs ->
  exists c', simpleRun c bs = Done c' /\ Inv n c' (items ++ concat bs.*2) /\ hNum c' = hNum c.
Proof.
  induction bs as [|[ws its] bs IH]; intros c items I Hf Lg Wo; cbn [simpleRun].
  - exists c. rewrite app_nil_r. done.
  - apply Forall_cons in Wo as [Hw Wo]. cbn [fst snd] in Hw.
    rewrite fmap_cons in Lg |- *. cbn [snd concat] in Lg |- *. rewrite app_assoc in Lg |- *.
    destruct (legal_split _ _ _ _ Lg) as (Lg1 & _ & _).
    destruct (legal_split _ _ _ _ Lg1) as (_ & ND & F).
    destruct (simpleInsertBatch_spec n c items ws its I Hw Hf ND F) as (c1 & -> & I1 & E1 & _ & Hf1).
    cbn [andThen obind]. destruct (IH c1 (items ++ its) I1 Hf1) as (c' & E' & I' & En); [by rewrite E1|done|].
    exists c'. split; [done|]. split; [done|]. congruence.
Qed.
