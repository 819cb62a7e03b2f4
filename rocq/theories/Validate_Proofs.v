(** Proofs about [validate]. *)
From Verif Require Import Base CuckooIndex_Model CuckooIndex_Spec CuckooIndex_Proofs Validate_Model Validate_Spec.

(** Bin [a] holds index [i]. *)
Definition holds (c : Cuckoo) (i a : N) : Prop :=
  exists w, cBins c !! N.to_nat a = Some w /\ isEmpty w = false /\ wordIdx w = i.

Lemma matchesFrom_spec c i h : forall n j seen,
  0 < pNumBins (cParams c) -> N.of_nat (length (cBins c)) = pNumBins (cParams c) ->
  cHashes c !! N.to_nat i = Some h -> j + N.of_nat n <= 5 ->
  exists L, matchesFrom c i j n seen = Some (length L) /\ NoDup L /\
    forall a, a ∈ L <-> a ∉ seen /\ holds c i a /\
      exists k, j <= k < j + N.of_nat n /\ mapsTo (pNumBins (cParams c)) h k a.
Proof.
  induction n as [|n IH]; intros j seen Hnb Hlen Hh Hj; cbn [matchesFrom].
  - exists []. split; [done|]. split; [constructor|]. intros a. split.
    + intros Ha. by apply elem_of_nil in Ha.
    + intros (_ & _ & k & Hk & _). lia.
  - unfold getHashOf. rewrite (proj2 (readN_Some _ _ h) Hh). unfold getHash.
    replace (pNumBins (cParams c) =? 0) with false by (symmetry; apply N.eqb_neq; lia).
    replace (4 <? j) with false by (symmetry; apply N.ltb_ge; lia). cbn [orb].
    set (a0 := (N.shiftr h (16 * j) mod two64) mod pNumBins (cParams c)).
    assert (mapsTo (pNumBins (cParams c)) h j a0) as Hm0.
    { unfold mapsTo, a0. by rewrite N.shiftr_div_pow2. }
    assert (a0 < pNumBins (cParams c)) as Ha0 by (apply N.mod_lt; lia).
    destruct (IH (j + 1) (seen ++ [a0]) Hnb Hlen Hh) as (L & -> & ND & HL); [lia|].
    assert (forall a, (exists k, j <= k < j + N.of_nat (S n) /\ mapsTo (pNumBins (cParams c)) h k a) <->
      a = a0 \/ exists k, j + 1 <= k < j + 1 + N.of_nat n /\ mapsTo (pNumBins (cParams c)) h k a) as Hk.
    { intros a. split.
      - intros (k & Hk & Hm). destruct (decide (k = j)) as [->|Hne].
        + left. unfold mapsTo in *. congruence.
        + right. exists k. split; [lia|done].
      - intros [->|(k & Hk & Hm)].
        + exists j. split; [lia|done].
        + exists k. split; [lia|done]. }
    case_bool_decide as Hs.
    + exists L. split; [done|]. split; [done|]. intros a. rewrite HL, Hk, not_elem_of_app, elem_of_list_singleton.
      split.
      * intros ((? & ?) & ? & ?). auto.
      * intros (? & ? & [->|?]); [done|]. split; [|done]. split; [done|]. by intros ->.
    + destruct (lookup_lt_is_Some_2 (cBins c) (N.to_nat a0)) as [w Hw]; [lia|].
      rewrite (proj2 (readN_Some _ _ w) Hw).
      destruct (negb (isEmpty w) && (wordIdx w =? i)) eqn:E.
      * apply andb_true_iff in E as [E1 E2]. apply negb_true_iff in E1. apply N.eqb_eq in E2.
        exists (a0 :: L). split; [done|]. split.
        { apply NoDup_cons. split; [|done]. intros Hin. apply HL in Hin as (Hn & _).
          apply Hn. apply elem_of_app. right. by apply elem_of_list_singleton. }
        intros a. rewrite elem_of_cons, HL, Hk, not_elem_of_app, elem_of_list_singleton. split.
        -- intros [->|((? & ?) & ? & ?)]; [|auto]. split; [done|]. split; [by exists w|]. by left.
        -- intros (? & ? & [->|?]); [by left|]. destruct (decide (a = a0)) as [->|]; [by left|]. right. auto.
      * exists L. split; [done|]. split; [done|]. intros a. rewrite HL, Hk, not_elem_of_app, elem_of_list_singleton.
        split; [intros ((? & ?) & ? & ?); auto|]. intros (? & Hho & Hor).
        destruct (decide (a = a0)) as [->|Hne].
        { exfalso. destruct Hho as (w' & Hw' & He & Hi). rewrite Hw in Hw'. injection Hw' as <-.
          rewrite He, Hi, N.eqb_refl in E. done. }
        destruct Hor as [->|?]; [done|]. auto.
Qed.

Lemma nonEmptyCount_occ v : nonEmptyCount v = length (occ v).
Proof.
  induction v as [|w v IH]; [done|]. rewrite occ_cons, app_length. cbn [nonEmptyCount].
  unfold occW. destruct (isEmpty w); cbn [length]; lia.
Qed.

Lemma occ_elem v i : i ∈ occ v <-> exists a w, v !! a = Some w /\ isEmpty w = false /\ wordIdx w = i.
Proof.
  unfold occ. rewrite elem_of_list_omap. split.
  - intros (w & Hw & E). apply elem_of_list_lookup in Hw as [a Ha]. exists a, w.
    destruct (isEmpty w) eqn:Ew; [done|]. injection E as <-. done.
  - intros (a & w & Ha & He & <-). exists w. rewrite He. split; [|done]. by eapply elem_of_list_lookup_2.
Qed.

Lemma occ_unique v : NoDup (occ v) -> forall a b w w',
  v !! a = Some w -> v !! b = Some w' -> isEmpty w = false -> isEmpty w' = false ->
  wordIdx w = wordIdx w' -> a = b.
Proof.
  induction v as [|x v IH]; intros ND a b w w' Ha Hb Hw Hw' E; [done|].
  rewrite occ_cons in ND. apply NoDup_app in ND as (_ & Hd & ND).
  destruct a as [|a], b as [|b]; cbn in Ha, Hb.
  - done.
  - exfalso. injection Ha as ->. apply (Hd (wordIdx w)).
    + unfold occW. rewrite Hw. by apply elem_of_list_singleton.
    + rewrite E. by eapply occ_in.
  - exfalso. injection Hb as ->. apply (Hd (wordIdx w')).
    + unfold occW. rewrite Hw'. by apply elem_of_list_singleton.
    + rewrite <- E. by eapply occ_in.
  - f_equal. by eapply IH.
Qed.

Lemma binIndices_occ c : binIndices c = occ (cBins c).
Proof. apply entryOf_occ. Qed.

Lemma entryOf_nonempty w i j : entryOf w = Some (i, j) -> isEmpty w = false /\ wordIdx w = i.
Proof.
  unfold entryOf. destruct (decide _) as [|Hne]; [done|]. intros [= <- <-]. split.
  - unfold isEmpty. apply N.eqb_neq. by rewrite emptyWord_val.
  - apply wordIdx_mod.
Qed.
Lemma nonempty_entryOf w : isEmpty w = false -> exists j, entryOf w = Some (wordIdx w, j).
Proof.
  intros He. unfold isEmpty in He. apply N.eqb_neq in He. rewrite emptyWord_val in He.
  unfold entryOf. rewrite decide_False by done. rewrite wordIdx_mod. eauto.
Qed.

(** Input number [i] is found in exactly one of its places. *)
Definition placedOnce (c : Cuckoo) (i h : N) : Prop :=
  exists a, holds c i a /\ (exists k, k < pNumHashes (cParams c) /\ mapsTo (pNumBins (cParams c)) h k a) /\
    forall b, holds c i b -> (exists k, k < pNumHashes (cParams c) /\ mapsTo (pNumBins (cParams c)) h k b) -> b = a.

Lemma matches_one c i h :
  0 < pNumBins (cParams c) -> N.of_nat (length (cBins c)) = pNumBins (cParams c) ->
  pNumHashes (cParams c) <= 5 -> cHashes c !! N.to_nat i = Some h ->
  exists m, matchesFrom c i 0 (N.to_nat (pNumHashes (cParams c))) [] = Some m /\
    (m = 1%nat <-> placedOnce c i h).
Proof.
  intros Hnb Hlen Hnh Hh.
  destruct (matchesFrom_spec c i h (N.to_nat (pNumHashes (cParams c))) 0 [] Hnb Hlen Hh) as (L & -> & ND & HL); [lia|].
  exists (length L). split; [done|].
  assert (forall a, a ∈ L <-> holds c i a /\ exists k, k < pNumHashes (cParams c) /\ mapsTo (pNumBins (cParams c)) h k a) as HL'.
  { intros a. rewrite HL. split.
    - intros (_ & ? & k & Hk & ?). split; [done|]. exists k. split; [lia|done].
    - intros (? & k & Hk & ?). split; [apply not_elem_of_nil|]. split; [done|]. exists k. split; [lia|done]. }
  clear HL. split.
  - intros Hl. destruct L as [|a [|? ?]]; try done. exists a.
    destruct (proj1 (HL' a)) as [? ?]; [by apply elem_of_list_singleton|]. split; [done|]. split; [done|].
    intros b ? ?. apply elem_of_list_singleton. apply HL'. done.
  - intros (a & Ha & Hk & Hu). assert (a ∈ L) as Hin by (apply HL'; done).
    destruct L as [|x [|y L]]; [by apply elem_of_nil in Hin|done|]. exfalso.
    assert (x = a) as -> by (apply Hu; apply HL'; left).
    assert (y = a) as -> by (apply Hu; apply HL'; right; left).
    apply NoDup_cons in ND as [Hn _]. apply Hn. left.
Qed.

Lemma validateItems_spec enc c : forall xs i count,
  0 < pNumBins (cParams c) -> N.of_nat (length (cBins c)) = pNumBins (cParams c) ->
  pNumHashes (cParams c) <= 5 -> (N.to_nat i + length xs <= length (cHashes c))%nat -> noReserved enc xs ->
  (exists n, validateItems enc c i xs count = Done n \/ validateItems enc c i xs count = Thrown n) /\
  (forall n, validateItems enc c i xs count = Done n ->
     n = (count + length xs)%nat /\
     forall k x, xs !! k = Some x ->
       cHashes c !! (N.to_nat i + k)%nat = Some (N.lxor (enc x) x) /\ placedOnce c (i + N.of_nat k) (N.lxor (enc x) x)) /\
  ((forall k x, xs !! k = Some x ->
       cHashes c !! (N.to_nat i + k)%nat = Some (N.lxor (enc x) x) /\ placedOnce c (i + N.of_nat k) (N.lxor (enc x) x)) ->
     validateItems enc c i xs count = Done (count + length xs)%nat).
Proof.
  induction xs as [|x xs IH]; intros i count Hnb Hlen Hnh Hl Hr; cbn [validateItems].
  - split; [eauto|]. split.
    + intros n [= <-]. cbn. split; [lia|]. done.
    + intros _. cbn. f_equal. lia.
  - apply Forall_cons in Hr as [Hr0 Hr]. cbn [length] in *.
    destruct (lookup_lt_is_Some_2 (cHashes c) (N.to_nat i)) as [h Hh]; [lia|].
    rewrite (proj2 (readN_Some _ _ h) Hh).
    destruct (N.eqb_spec (N.lxor (enc x) x) h) as [E|E]; cbn [negb].
    2:{ split; [eauto|]. split; [done|]. intros H. exfalso.
        destruct (H 0%nat x eq_refl) as [H0 _]. rewrite Nat.add_0_r, Hh in H0. by injection H0 as ->. }
    destruct (N.eqb_spec h (2 ^ 128 - 1)) as [E'|_]; [exfalso; apply Hr0; by rewrite E|].
    destruct (matches_one c i h Hnb Hlen Hnh Hh) as (m & -> & Hm).
    destruct (Nat.eqb_spec m 1) as [E1|E1].
    + apply Hm in E1. destruct (IH (i + 1) (S count) Hnb Hlen Hnh) as (I1 & I2 & I3); [lia|done|].
      split; [done|]. split.
      * intros n Hn. destruct (I2 n Hn) as [-> H]. split; [lia|]. intros [|k] x' Hx; cbn in Hx.
        -- injection Hx as <-. rewrite Nat.add_0_r, N.add_0_r, E. done.
        -- destruct (H k x' Hx) as [H1 H2].
           replace (N.to_nat i + S k)%nat with (N.to_nat (i + 1) + k)%nat by lia.
           replace (i + N.of_nat (S k)) with (i + 1 + N.of_nat k) by lia. done.
      * intros H. rewrite I3; [f_equal; lia|]. intros k x' Hx. destruct (H (S k) x' Hx) as [H1 H2].
        replace (N.to_nat (i + 1) + k)%nat with (N.to_nat i + S k)%nat by lia.
        replace (i + 1 + N.of_nat k) with (i + N.of_nat (S k)) by lia. done.
    + split; [eauto|]. split; [done|]. intros H. exfalso. destruct (H 0%nat x eq_refl) as [_ H0].
      rewrite N.add_0_r, E in H0. by apply Hm in H0.
Qed.

Lemma validate_exact enc c xs :
  0 < pNumBins (cParams c) -> N.of_nat (length (cBins c)) = pNumBins (cParams c) ->
  pNumHashes (cParams c) <= 5 -> (length xs <= length (cHashes c))%nat -> noReserved enc xs ->
  (binsHold enc c xs -> validate enc c xs = Done tt) /\
  (~ binsHold enc c xs -> validate enc c xs = Thrown tt).
Proof.
  intros Hnb Hlen Hnh Hl Hr.
  destruct (validateItems_spec enc c xs 0 0 Hnb Hlen Hnh ltac:(lia) Hr) as (I1 & I2 & I3).
  cbn [Nat.add] in *. change (N.to_nat 0) with 0%nat in *. cbn [Nat.add] in *.
  split.
  - intros (B1 & B2 & B3). unfold validate. rewrite binIndices_occ in B2.
    assert (NoDup (occ (cBins c))) as ND.
    { rewrite B2. apply NoDup_fmap_2; [intros ? ?; lia|]. apply NoDup_seq. }
    rewrite I3.
    + rewrite nonEmptyCount_occ, B2, map_length, seq_length, Nat.eqb_refl. done.
    + intros k x Hx. split; [by apply B1|]. rewrite N.add_0_l.
      assert (N.of_nat k ∈ occ (cBins c)) as Hin.
      { rewrite B2. apply elem_of_list_fmap. exists k. split; [done|]. apply elem_of_seq.
        apply lookup_lt_Some in Hx. lia. }
      apply occ_elem in Hin as (a & w & Ha & He & Hi).
      destruct (nonempty_entryOf w He) as [j Ej].
      destruct (B3 a w _ j Ha Ej) as (x' & k' & Hx' & Hk' & Hm). rewrite Hi, Nat2N.id, Hx in Hx'.
      injection Hx' as <-.
      exists (N.of_nat a). split; [exists w; by rewrite Nat2N.id|]. split; [by exists k'|].
      intros b (w' & Hw' & He' & Hi') _.
      assert (N.to_nat b = a) as <-; [|by rewrite N2Nat.id].
      eapply (occ_unique _ ND); [exact Hw'|exact Ha|done|done|congruence].
  - intros Hno. unfold validate. destruct I1 as [n [E|E]]; rewrite E; [|done].
    destruct (Nat.eqb_spec (nonEmptyCount (cBins c)) n) as [En|]; [|done]. exfalso. apply Hno.
    destruct (I2 n E) as [-> H]. rewrite nonEmptyCount_occ in En.
    assert (Permutation (map N.of_nat (seq 0 (length xs))) (occ (cBins c))) as P.
    { apply submseteq_Permutation_length_eq.
      - rewrite map_length, seq_length. lia.
      - apply NoDup_submseteq.
        + apply NoDup_fmap_2; [intros ? ?; lia|]. apply NoDup_seq.
        + intros i Hi. apply elem_of_list_fmap in Hi as (k & -> & Hk). apply elem_of_seq in Hk.
          destruct (lookup_lt_is_Some_2 xs k) as [x Hx]; [lia|].
          destruct (H k x Hx) as [_ (a & (w & Hw & He & Hi) & _)]. rewrite N.add_0_l in Hi.
          apply occ_elem. by exists (N.to_nat a), w. }
    split; [intros i x Hx; by apply (H i x Hx)|]. split.
    { rewrite binIndices_occ. by symmetry. }
    intros a w i j Ha Hej. destruct (entryOf_nonempty w i j Hej) as [He Hi].
    assert (i ∈ occ (cBins c)) as Hin by (apply occ_elem; by exists a, w).
    rewrite <- P in Hin. apply elem_of_list_fmap in Hin as (k & Ek & Hk). apply elem_of_seq in Hk.
    destruct (lookup_lt_is_Some_2 xs k) as [x Hx]; [lia|].
    destruct (H k x Hx) as [_ (a' & (w' & Hw' & He' & Hi') & (k' & Hk' & Hm) & _)]. rewrite N.add_0_l in Hi'.
    assert (N.to_nat a' = a) as Ea.
    { assert (NoDup (occ (cBins c))) as ND.
      { rewrite <- P. apply NoDup_fmap_2; [intros ? ?; lia|]. apply NoDup_seq. }
      eapply (occ_unique _ ND); [exact Hw'|exact Ha|done|done|congruence]. }
    exists x, k'. rewrite Ek, Nat2N.id. split; [done|]. split; [done|]. rewrite <- Ea, N2Nat.id. done.
Qed.

Lemma times_perm_seq (l : list N) n :
  (forall i, times l i = if decide (i < N.of_nat n) then 1%nat else 0%nat) ->
  Permutation l (map N.of_nat (seq 0 n)).
Proof.
  intros H.
  assert (forall i, i ∈ l <-> i < N.of_nat n) as Hin.
  { intros i. specialize (H i). unfold times in H. destruct (decide _) as [Hl|Hl].
    - split; [done|]. intros _. destruct (filter (fun y => y = i) l) as [|z r] eqn:E; [cbn in H; lia|].
      assert (z ∈ filter (fun y => y = i) l) as Hz by (rewrite E; left).
      apply elem_of_list_filter in Hz as [-> Hz]. done.
    - split; [|lia]. intros Hi. exfalso. destruct (filter (fun y => y = i) l) as [|z r] eqn:E; [|cbn in H; lia].
      assert (i ∈ filter (fun y => y = i) l) as Hz by (by apply elem_of_list_filter).
      rewrite E in Hz. by apply elem_of_nil in Hz. }
  assert (NoDup l) as ND.
  { assert (forall i, (times l i <= 1)%nat) as Hle by (intros i; rewrite H; destruct (decide _); lia).
    clear H Hin. induction l as [|x l IH]; [constructor|]. apply NoDup_cons. split.
    - intros Hx. specialize (Hle x). unfold times in Hle. rewrite filter_cons_True in Hle by done. cbn in Hle.
      assert (x ∈ filter (fun y => y = x) l) as Hz by (by apply elem_of_list_filter).
      destruct (filter (fun y => y = x) l); [by apply elem_of_nil in Hz|cbn in Hle; lia].
    - apply IH. intros i. specialize (Hle i). unfold times in *.
      destruct (decide (x = i)); [rewrite filter_cons_True in Hle by done|rewrite filter_cons_False in Hle by done]; cbn in Hle; lia. }
  apply stdpp.list.NoDup_Permutation; [done| |].
  - apply NoDup_fmap_2; [intros ? ?; lia|]. apply NoDup_seq.
  - intros i. rewrite Hin. change (map N.of_nat (seq 0 n)) with (N.of_nat <$> seq 0 n). rewrite elem_of_list_fmap. split.
    + intros Hi. exists (N.to_nat i). rewrite N2Nat.id. split; [done|]. apply elem_of_seq. lia.
    + intros (k & -> & Hk). apply elem_of_seq in Hk. lia.
Qed.

(** A freshly filled table is accepted if and only if nothing is in the stash. *)
Lemma validate_filled enc p lim c0 xs c :
  legalParams p -> init p (constructed lim) = Done c0 ->
  (length xs <= pN p)%nat -> N.of_nat (pN p) < 2 ^ 56 -> noReserved enc xs ->
  insertItems enc c0 xs 0 = Done c ->
  (Forall (fun w => entryOf w = None) (cStash c) -> validate enc c xs = Done tt) /\
  (~ Forall (fun w => entryOf w = None) (cStash c) -> validate enc c xs = Thrown tt).
Proof.
  intros Lp Hi H1 H2 Hr E.
  destruct (cuckoo_insert_items enc p lim c0 xs c Lp Hi H1 H2 E) as [A B].
  assert (cParams c = p /\ WF c /\ (forall i x, xs !! i = Some x -> cHashes c !! i = Some (N.lxor (enc x) x)) /\
          (length xs <= length (cHashes c))%nat) as (Hp & W & Hh & Hl).
  { destruct (insertItems_batches enc c0 xs 0) as (bs & Eb & Ec). rewrite Eb in E.
    pose proof (imap_items_legal p (fun x => N.lxor (enc x) x) xs 0 ltac:(lia) H2) as L.
    assert (legalItems p (concat bs)) as L' by (rewrite Ec; exact L).
    pose proof (insertBatches_legal p lim c0 bs Lp Hi L') as Bt. rewrite E in Bt.
    destruct Bt as (set & P & I & S & Hp).
    assert (forall i x, xs !! i = Some x -> cHashes c !! i = Some (N.lxor (enc x) x)) as Hh.
    { intros i x Hx. assert ((N.of_nat i, N.lxor (enc x) x) ∈ set) as Hin.
      { rewrite P, Ec. apply elem_of_lookup_imap. exists i, x. split; [|done]. by rewrite N.add_0_r. }
      destruct (inv_hash _ _ _ I _ _ Hin) as [_ Hx']. by rewrite Nat2N.id in Hx'. }
    split; [done|]. split; [by apply (inv_wf _ _ _ I)|]. split; [done|].
    destruct (decide (length xs = 0)%nat); [lia|].
    destruct (lookup_lt_is_Some_2 xs (length xs - 1)) as [x Hx]; [lia|].
    apply Hh in Hx. apply lookup_lt_Some in Hx. lia. }
  assert (storedIndices c = binIndices c ++ (omap entryOf (cStash c)).*1) as Es.
  { unfold storedIndices, binIndices. by rewrite omap_app, fmap_app. }
  apply times_perm_seq in A. rewrite Es in A.
  destruct (validate_exact enc c xs) as [V1 V2]; try done.
  { by apply wf_pos. } { by apply wf_len. } { pose proof (wf_h3 _ W). lia. }
  split.
  - intros Hst. apply V1. split; [done|]. split.
    + assert (omap entryOf (cStash c) = []) as E0.
      { clear -Hst. induction Hst as [|w l Hw _ IH]; [done|]. cbn. by rewrite Hw. }
      rewrite E0 in A. cbn in A. by rewrite app_nil_r in A.
    + intros a w i j Ha Hej. rewrite Hp. destruct (B a w i j Ha Hej) as (x & Hx & Hj & Hm).
      by exists x, j.
  - intros Hst. apply V2. intros (_ & P & _). apply Hst.
    rewrite P in A. apply Permutation_length in A. rewrite app_length, map_length, seq_length in A.
    assert (omap entryOf (cStash c) = []) as E0.
    { apply nil_length_inv. rewrite fmap_length in A. lia. }
    clear -E0. induction (cStash c) as [|w l IH]; [constructor|]. cbn in E0. destruct (entryOf w) eqn:Ew; [done|].
    constructor; [done|]. by apply IH.
Qed.
