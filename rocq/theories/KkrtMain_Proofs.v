(** The KKRT protocol as a whole. *)
From Verif Require Import Base CuckooIndex_Model CuckooIndex_Spec CuckooIndex_Proofs SimpleIndex_Spec
  Kkrt_Model Kkrt_Spec Kkrt_Proofs KkrtRecv_Proofs.

Lemma sender_runs F enc seed junk ms nb pm iv S sched :
  0 < nb -> nb < 2 ^ 64 - 1 -> (0 < length S)%nat -> permutationOf (length S) pm iv ->
  exists g e, senderInput F enc seed junk ms nb pm iv (length S) S sched = Done (Some (g, e)) /\
    GInv nb g /\ EInv F (enc seed) junk ms nb S pm g e.
Proof.
  intros H0 H1 Hn (P & L & I). unfold senderInput. rewrite Nat.eqb_refl. cbn [negb].
  destruct (hashItems_ok F (enc seed) junk ms nb S pm iv H0 H1 P L I) as (s & -> & Is).
  assert (GInv nb (mkArrivals 0 0)) as G0 by (unfold GInv; cbn; lia).
  destruct (loopTest_ok F (enc seed) junk ms nb S pm iv H0 H1 P L I (mkArrivals 0 0) 0 0 s) as (e & -> & Ie & _);
    [done|lia|cbn; lia|done|].
  destruct (runSender_ok F (enc seed) junk ms nb S pm iv H0 H1 P L I sched _ e G0 Ie) as (g & e' & -> & G & E & _).
  eauto.
Qed.

Lemma sender_finishes F enc seed junk ms nb pm iv S s1 s2 :
  0 < nb -> nb < 2 ^ 64 - 1 -> (0 < length S)%nat -> permutationOf (length S) pm iv ->
  2 * nb <= N.of_nat (length (filter (fun b => b = true) s1)) ->
  (1024 < length (filter (fun b => b = false) s2))%nat ->
  exists g msgs, senderInput F enc seed junk ms nb pm iv (length S) S (s1 ++ s2) = Done (Some (g, Sent msgs)).
Proof.
  intros H0 H1 Hn (P & L & I) C1 C2. unfold senderInput. rewrite Nat.eqb_refl. cbn [negb].
  destruct (hashItems_ok F (enc seed) junk ms nb S pm iv H0 H1 P L I) as (s & -> & Is).
  assert (GInv nb (mkArrivals 0 0)) as G0 by (unfold GInv; cbn; lia).
  destruct (loopTest_ok F (enc seed) junk ms nb S pm iv H0 H1 P L I (mkArrivals 0 0) 0 0 s) as (e & -> & Ie & _);
    [done|lia|cbn; lia|done|].
  rewrite runSender_app.
  destruct (runSender_ok F (enc seed) junk ms nb S pm iv H0 H1 P L I s1 _ e G0 Ie) as (g & e' & E1 & G & Ee & _).
  rewrite E1.
  assert (gRecved g = nb) as Hg.
  { eapply (background_finishes F (enc seed) junk ms nb S pm iv H0 H1 P L I s1 (mkArrivals 0 0)); [done|exact Ie|exact E1|].
    unfold turnsLeft. cbn. lia. }
  destruct (runSender_ok F (enc seed) junk ms nb S pm iv H0 H1 P L I s2 g e' G Ee) as (g2 & e2 & E2 & _).
  rewrite E2.
  destruct (encoder_finishes F (enc seed) junk ms nb S pm iv H0 H1 P L I s2 g e' g2 e2 G Ee Hg E2) as [m ->].
  { destruct e' as [j ? ? ?|]; [|done]. rewrite stepSize_val. lia. }
  eauto.
Qed.

Lemma sent_masks F enc seed junk ms nb pm iv S sched g msgs :
  0 < nb -> nb < 2 ^ 64 - 1 -> (0 < length S)%nat -> permutationOf (length S) pm iv ->
  senderInput F enc seed junk ms nb pm iv (length S) S sched = Done (Some (g, Sent msgs)) ->
  msgs = sentMsgs F (enc seed) junk ms nb S pm.
Proof.
  intros H0 H1 Hn P E. destruct (sender_runs F enc seed junk ms nb pm iv S sched H0 H1 Hn P) as (g' & e & E' & _ & I).
  rewrite E in E'. injection E' as <- <-. exact I.
Qed.

Local Opaque stepSize.
Lemma concat_regions F enc junk ms nb xs pm (Hpm : pm ≡ₚ seq 0 (length xs)) regions : forall r,
  (regions = numRegions xs - r)%nat ->
  concat (map (regionMsg F enc junk ms nb xs pm) (seq r regions)) = drop (r * stepSize * 3) (allMasks F enc junk ms nb xs pm).
Proof.
  pose proof (allMasks_length F enc junk ms nb xs pm Hpm) as L.
  induction regions as [|regions IH]; intros r Hr.
  - cbn. assert (~ (r * stepSize < length xs)%nat) by (rewrite regions_bound; lia). rewrite drop_ge; [done|lia].
  - assert (r * stepSize < length xs)%nat as X by (rewrite regions_bound; lia).
    cbn [seq map concat]. rewrite IH by lia. unfold regionMsg.
    destruct (Nat.le_gt_cases stepSize (length xs - r * stepSize)) as [L1|L1].
    + rewrite Nat.min_l by lia. replace (S r * stepSize * 3)%nat with (r * stepSize * 3 + stepSize * 3)%nat by lia.
      rewrite <- drop_drop. apply take_drop.
    + rewrite Nat.min_r by lia. rewrite (drop_ge (allMasks F enc junk ms nb xs pm) (S r * stepSize * 3)) by lia.
      rewrite app_nil_r. apply take_ge. rewrite drop_length. lia.
Qed.

Lemma concat_sent F enc junk ms nb xs pm : pm ≡ₚ seq 0 (length xs) ->
  concat (sentMsgs F enc junk ms nb xs pm) = allMasks F enc junk ms nb xs pm.
Proof. intros P. unfold sentMsgs. rewrite concat_regions by (done || lia). done. Qed.

Lemma repeats_row nb h k w c : 0 < nb -> rowOf nb h !! k = Some (w, c) -> (c = true <-> repeats nb h (N.of_nat k)).
Proof.
  intros H0 Hr. destruct (rowOf_lookup nb h k w c H0 Hr) as (_ & -> & _). unfold repeats. split.
  - intros (k' & Hk & E). exists (N.of_nat k'), (cand nb h (N.of_nat k)). rewrite !cand_mapsTo. split; [lia|]. done.
  - intros (h' & b & Hh & Hm & Hm'). rewrite cand_mapsTo in Hm, Hm'. exists (N.to_nat h'). split; [lia|].
    rewrite N2Nat.id. congruence.
Qed.

Lemma sent_right F enc seed junk ms nb pm iv S sched g msgs :
  0 < nb -> nb < 2 ^ 64 - 1 -> (0 < length S)%nat -> permutationOf (length S) pm iv ->
  senderInput F enc seed junk ms nb pm iv (length S) S sched = Done (Some (g, Sent msgs)) ->
  length (concat msgs) = (3 * length S)%nat /\
  forall i idx h, pm !! i = Some idx -> (h < 3)%nat ->
    exists m, concat msgs !! (i * 3 + h)%nat = Some m /\ rightMask F (enc seed) junk nb ms S idx h m.
Proof.
  intros H0 H1 Hn P E. rewrite (sent_masks F enc seed junk ms nb pm iv S sched g msgs H0 H1 Hn P E).
  destruct P as (P & L & I). rewrite concat_sent by done. split; [by apply allMasks_length|].
  intros i idx h Hi Hh. destruct (lookup_lt_is_Some_2 S idx) as [x Hx]; [by eapply pm_range|].
  destruct (row_three (enc seed) nb x h Hh) as (w & c & Hr).
  eexists. split; [by eapply allMasks_lookup|]. exists x. split; [done|].
  pose proof (repeats_row nb _ h w c H0 Hr) as Rr.
  destruct (rowOf_lookup nb _ h w c H0 Hr) as (_ & _ & Hw & _). unfold expected. destruct c; split; intros Hrep.
  - done.
  - exfalso. apply Hrep, Rr. done.
  - exfalso. apply Rr in Hrep. done.
  - destruct (Hw eq_refl) as [-> _]. eexists. split; [by apply cand_mapsTo|done].
Qed.

Section protocol.
Context (F : N -> N -> N) (enc : N -> N) (junk : nat -> nat -> N) (ms nb : N).
Context (S R : list N) (pm : list nat) (c : Cuckoo).
Context (Hnb : 0 < nb).
Context (Hpm : pm ≡ₚ seq 0 (length S)).
Context (T : Table enc nb R c).
Context (maps : list maskMap) (M : MInv F enc ms nb R c (length (cBins c)) maps).

Notation hash x := (N.lxor (enc x) x).
Notation holds := (holds enc nb R c).
Notation maskOf := (maskOf F ms).
Notation found idx := (matchItem ms maps (expMasks F enc junk ms nb S idx)).

(** What the protocol outputs. *)
Definition outList : list N := concat (map (fun idx => found idx) pm).

Lemma matchItems_out : matchItems ms maps (allMasks F enc junk ms nb S pm) (length S) = outList.
Proof.
  unfold allMasks, outList. rewrite <- (map_map (expMasks F enc junk ms nb S) (matchItem ms maps)).
  rewrite <- matchItems_concat by (by apply expMasks_all). by rewrite map_length, (pm_length S pm Hpm).
Qed.

Lemma elem_outList i : i ∈ outList <-> exists idx, (idx < length S)%nat /\ i ∈ found idx.
Proof.
  unfold outList. rewrite elem_of_concat. split.
  - intros (l & Hi & Hl). apply elem_of_list_fmap in Hl as (idx & -> & Hidx).
    exists idx. split; [|done]. rewrite Hpm in Hidx. apply elem_of_seq in Hidx. lia.
  - intros (idx & Hl & Hi). exists (found idx). split; [done|]. apply elem_of_list_fmap. exists idx. split; [done|].
    rewrite Hpm. apply elem_of_seq. lia.
Qed.

Lemma holds_candidate a i x k : holds a i x k -> candidate enc nb x (N.of_nat a) /\ x ∈ R.
Proof.
  intros (w & _ & _ & _ & Hx & Hk & Hc & _). split.
  - exists k. split; [done|]. by apply cand_mapsTo.
  - by eapply elem_of_list_lookup_2.
Qed.

(** A reported match comes from an equal item. *)
Lemma found_sound idx i : noFalseMatch F enc nb ms R S -> junkHarmless F enc junk nb ms R ->
  (idx < length S)%nat -> i ∈ found idx ->
  exists y a k, S !! idx = Some y /\ holds a i y k.
Proof.
  intros NF JH Hl Hi. apply elem_matchItem in Hi as (k & m & e & Hm & He & Hf).
  destruct (mi_sound _ _ _ _ _ _ _ _ M _ _ _ _ _ Hm Hf) as (a & x & _ & Hh & Ee & _).
  destruct (lookup_lt_is_Some_2 S idx Hl) as [y Hy]. exists y, a, (N.of_nat k). split; [done|].
  assert (k < 3)%nat as Hk by (apply lookup_lt_Some in Hm; rewrite (mi_len _ _ _ _ _ _ _ _ M) in Hm; lia).
  destruct (row_three enc nb y k Hk) as (w & cc & Hr).
  rewrite (expMasks_lookup F enc junk ms nb S idx y k w cc Hy Hr) in He. injection He as He.
  destruct (holds_candidate _ _ _ _ Hh) as [Cx Rx].
  unfold expected in He. destruct (rowOf_lookup nb _ k w cc Hnb Hr) as (_ & _ & Hw & _). destruct cc.
  - exfalso. apply (JH idx k x (N.of_nat a) Rx Cx). rewrite He. exact Ee.
  - destruct (Hw eq_refl) as [-> _].
    assert (x = y) as <-; [|done]. apply (NF x y (N.of_nat a) (cand nb (hash y) (N.of_nat k))); try done.
    + by eapply elem_of_list_lookup_2.
    + exists (N.of_nat k). split; [lia|]. by apply cand_mapsTo.
    + rewrite He. symmetry. exact Ee.
Qed.

(** A common item is reported. *)
Lemma found_complete idx i y : keysDistinct F enc nb ms R -> S !! idx = Some y -> R !! i = Some y ->
  N.of_nat i ∈ found idx.
Proof.
  intros KD Hy Hx. destruct (tb_stored _ _ _ _ T i y Hx) as (a & w & Hw & He & Hi).
  destruct (tb_word _ _ _ _ T a w Hw He) as (x & j & Hxw & _ & Hj & Hc).
  rewrite Hi, Nat2N.id, Hx in Hxw. injection Hxw as <-.
  destruct (minColliding_ok (N.of_nat a) (hash y) nb j Hnb Hj Hc) as (k & _ & Hk & Hck & Hmin).
  assert (holds a (N.of_nat i) y k) as Hh.
  { exists w. rewrite Nat2N.id. done. }
  destruct (lookup_lt_is_Some_2 maps (N.to_nat k)) as [m Hm]; [rewrite (mi_len _ _ _ _ _ _ _ _ M); lia|].
  assert (holds a (N.of_nat i) y (N.of_nat (N.to_nat k))) as Hh' by (by rewrite N2Nat.id).
  destruct (mi_complete _ _ _ _ _ _ _ _ M _ _ a _ _ Hm (lookup_lt_Some _ _ _ Hw) Hh') as [[e' i'] Hf].
  destruct (mi_sound _ _ _ _ _ _ _ _ M _ _ _ _ _ Hm Hf) as (a' & x' & _ & H' & Ee' & Ek).
  assert (a' = a) as ->.
  { destruct (holds_candidate _ _ _ _ Hh) as [C1 R1]. destruct (holds_candidate _ _ _ _ H') as [C2 R2].
    assert (N.of_nat a' = N.of_nat a); [|lia].
    apply (KD x' y (N.of_nat a') (N.of_nat a)); try done. subst e'. symmetry. exact Ek. }
  destruct (holds_fun _ _ _ _ _ _ _ _ _ _ _ H' Hh) as (-> & -> & _). subst e'.
  apply elem_matchItem. exists (N.to_nat k), m, (maskOf a y). split; [done|].
  destruct (row_three enc nb y (N.to_nat k) ltac:(lia)) as (w' & cc & Hr).
  destruct (rowOf_lookup nb _ _ w' cc Hnb Hr) as (_ & Hcc & Hw' & _).
  rewrite N2Nat.id in Hcc, Hw'.
  assert (cc = false) as ->.
  { destruct cc; [|done]. exfalso. destruct (proj1 Hcc eq_refl) as (k' & Hk' & E). apply (Hmin (N.of_nat k')); [lia|]. congruence. }
  split.
  - rewrite (expMasks_lookup F enc junk ms nb S idx y _ w' false Hy Hr). unfold expected, maskOf.
    destruct (Hw' eq_refl) as [-> _]. by rewrite Hck.
  - unfold KkrtRecv_Proofs.maskOf at 1. rewrite (key_ok F ms nb Hnb). exact Hf.
Qed.

Lemma out_exact : noFalseMatch F enc nb ms R S -> junkHarmless F enc junk nb ms R -> keysDistinct F enc nb ms R ->
  forall i, i ∈ outList <-> exists x, R !! N.to_nat i = Some x /\ x ∈ S.
Proof.
  intros NF JH KD i. rewrite elem_outList. split.
  - intros (idx & Hl & Hi). destruct (found_sound idx i NF JH Hl Hi) as (y & a & k & Hy & Hh).
    exists y. destruct Hh as (_ & _ & _ & _ & Hx & _). split; [done|]. by eapply elem_of_list_lookup_2.
  - intros (x & Hx & HS). apply elem_of_list_lookup in HS as [idx Hidx]. exists idx.
    split; [by eapply lookup_lt_Some|]. pose proof (found_complete idx (N.to_nat i) x KD Hidx Hx) as X.
    by rewrite N2Nat.id in X.
Qed.

Lemma NoDup_concat_map {A B} (f : A -> list B) (l : list A) : NoDup l -> (forall a, a ∈ l -> NoDup (f a)) ->
  (forall a a' b, a ∈ l -> a' ∈ l -> b ∈ f a -> b ∈ f a' -> a = a') -> NoDup (concat (map f l)).
Proof.
  clear. induction l as [|a l IH]; intros ND N1 D; [constructor|]. apply NoDup_cons in ND as [Hn ND].
  cbn. apply NoDup_app. split; [apply N1; left|]. split.
  - intros b Hb Hc. apply elem_of_concat in Hc as (l' & Hb' & Hl'). apply elem_of_list_fmap in Hl' as (a' & -> & Ha').
    apply Hn. rewrite (D a a' b); [done|left|by right|done|done].
  - apply IH; [done| |].
    + intros; apply N1; by right.
    + intros a1 a2 b ? ?. apply D; by right.
Qed.

Lemma out_nodup : noFalseMatch F enc nb ms R S -> junkHarmless F enc junk nb ms R -> NoDup S -> NoDup outList.
Proof.
  intros NF JH ND. apply NoDup_concat_map.
  - by eapply pm_nodup.
  - intros idx _. apply NoDup_matchItem.
    intros k k' m m' e e' i Hm Hm' _ _ Hf Hf'.
    destruct (mi_sound _ _ _ _ _ _ _ _ M _ _ _ _ _ Hm Hf) as (a & x & _ & Hh & _).
    destruct (mi_sound _ _ _ _ _ _ _ _ M _ _ _ _ _ Hm' Hf') as (a' & x' & _ & Hh' & _).
    destruct (holds_once _ _ _ _ T _ _ _ _ _ _ _ Hh Hh') as [_ E]. lia.
  - intros idx idx' i H1 H2 Hi Hi'.
    rewrite Hpm in H1, H2. apply elem_of_seq in H1, H2.
    destruct (found_sound idx i NF JH ltac:(lia) Hi) as (y & a & k & Hy & Hh).
    destruct (found_sound idx' i NF JH ltac:(lia) Hi') as (y' & a' & k' & Hy' & Hh').
    destruct Hh as (_ & _ & _ & _ & Hx & _). destruct Hh' as (_ & _ & _ & _ & Hx' & _).
    assert (y = y') as <- by congruence. by eapply NoDup_lookup.
Qed.
End protocol.

Lemma kkrt_exact F enc seed junk ms p lim o pm iv S R sched g msgs c :
  legalParams p -> pStashSize p = 0%nat -> pNumBins p < 2 ^ 64 - 1 ->
  (length R <= pN p)%nat -> N.of_nat (pN p) < 2 ^ 56 ->
  recvInit p (mkKReceiver (constructed lim) []) = Done o ->
  insertItems (enc seed) (krIndex o) R 0 = Done c ->
  (0 < length S)%nat -> permutationOf (length S) pm iv ->
  senderInput F enc seed junk ms (pNumBins p) pm iv (length S) S sched = Done (Some (g, Sent msgs)) ->
  exists o', receiverInput F enc seed ms (length S) (length R) o R msgs = Done (o', []) /\
    (noFalseMatch F (enc seed) (pNumBins p) ms R S -> junkHarmless F (enc seed) junk (pNumBins p) ms R ->
       (forall i, i ∈ krIntersection o' -> exists x, R !! N.to_nat i = Some x /\ x ∈ S) /\
       (NoDup S -> NoDup (krIntersection o'))) /\
    (keysDistinct F (enc seed) (pNumBins p) ms R ->
       forall i x, R !! i = Some x -> x ∈ S -> N.of_nat i ∈ krIntersection o').
Proof.
  intros Lp Hst H64 HR H56 Ho Hc Hn P Hs. unfold recvInit in Ho. cbn [krIndex] in Ho.
  destruct (init p (constructed lim)) as [c0|c0| |] eqn:Hi; try done. injection Ho as <-. cbn [krIndex krIntersection] in *.
  pose proof (table_ok (enc seed) p lim c0 R c Lp Hst Hi HR H56 Hc) as T.
  assert (0 < pNumBins p) as H0 by apply Lp.
  unfold receiverInput. rewrite Nat.eqb_refl. cbn [negb krIndex krIntersection]. rewrite Hc.
  destruct (maps_ok F (enc seed) ms (pNumBins p) R c H0 T) as (maps & -> & M).
  rewrite (sent_masks F enc seed junk ms _ pm iv S sched g msgs H0 H64 Hn P Hs).
  destruct P as (P & L & I).
  pose proof (recvRegions_ok F (enc seed) junk ms (pNumBins p) S pm maps P (numRegions S) 0 [] []) as RR.
  feed specialize RR; [lia|lia|]. cbn [Nat.mul] in RR. rewrite drop_0, Nat.sub_0_r, app_nil_r in RR.
  unfold sentMsgs. change ((length S + stepSize - 1) / stepSize)%nat with (numRegions S). rewrite RR.
  rewrite (matchItems_out F (enc seed) junk ms (pNumBins p) S pm P maps). cbn [app].
  eexists. split; [reflexivity|]. cbn [krIntersection]. split; [|].
  - intros NF JH. split.
    + intros i Hin. rewrite elem_outList in Hin by done. destruct Hin as (idx & Hl & Hin).
      destruct (found_sound F (enc seed) junk ms (pNumBins p) S R c H0 maps M idx i NF JH Hl Hin) as (y & a & k & Hy & Hh).
      destruct Hh as (_ & _ & _ & _ & Hx & _). exists y. split; [done|]. by eapply elem_of_list_lookup_2.
    + intros ND. by eapply out_nodup.
  - intros KD i x Hx HS. apply elem_of_list_lookup in HS as [idx Hidx]. rewrite elem_outList by done. exists idx.
    split; [by eapply lookup_lt_Some|]. by eapply found_complete.
Qed.

(** ** Message traces *)

Lemma corr_equal nb fuel : forall i, corrStepsR fuel nb i = corrStepsS fuel nb i.
Proof.
  induction fuel as [|f IH]; intros i; [done|]. cbn [corrStepsR corrStepsS].
  destruct (N.ltb_spec i nb); [|done]. f_equal. destruct (N.le_gt_cases 1024 (nb - i)) as [L|L].
  - rewrite N.min_l by lia. apply IH.
  - rewrite N.min_r by lia. destruct f; [done|]. cbn [corrStepsR corrStepsS].
    rewrite (proj2 (N.ltb_ge _ _)) by lia. rewrite (proj2 (N.ltb_ge _ _)) by lia. done.
Qed.

Lemma maskS_ok ms n fuel : forall r, n <= (r + N.of_nat fuel) * 1024 ->
  maskStepsS fuel ms n (r * 1024) =
  map (fun k => MaskMsg (N.min (n - N.of_nat k * 1024) 1024 * 3 * ms))
    (seq (N.to_nat r) (N.to_nat ((n + 1024 - 1) / 1024) - N.to_nat r)).
Proof.
  pose proof (N.mul_div_le (n + 1024 - 1) 1024 ltac:(lia)) as Q1.
  pose proof (N.mul_succ_div_gt (n + 1024 - 1) 1024 ltac:(lia)) as Q2.
  revert Q1 Q2. generalize ((n + 1024 - 1) / 1024). intros q Q1 Q2.
  induction fuel as [|f IH]; intros r Hf; cbn [maskStepsS].
  - replace (N.to_nat q - N.to_nat r)%nat with 0%nat by lia. done.
  - destruct (N.ltb_spec (r * 1024) n) as [L|L].
    + replace (N.to_nat q - N.to_nat r)%nat
        with (S (N.to_nat q - N.to_nat (r + 1)))%nat by lia.
      cbn [seq map]. f_equal.
      * f_equal. rewrite N2Nat.id. rewrite (N.min_comm 1024). ring.
      * destruct (N.le_gt_cases 1024 (n - r * 1024)) as [L1|L1].
        -- rewrite N.min_l by lia. replace (r * 1024 + 1024) with ((r + 1) * 1024) by lia.
           rewrite IH by lia. by replace (N.to_nat (r + 1)) with (S (N.to_nat r)) by lia.
        -- rewrite N.min_r by lia.
           replace (N.to_nat q - N.to_nat (r + 1))%nat with 0%nat by lia.
           destruct f; [done|]. cbn [maskStepsS]. rewrite (proj2 (N.ltb_ge _ _)) by lia. done.
    + replace (N.to_nat q - N.to_nat r)%nat with 0%nat by lia. done.
Qed.

Lemma mask_equal ms n : maskStepsS (N.to_nat n) ms n 0 = maskStepsR ms n.
Proof.
  pose proof (maskS_ok ms n (N.to_nat n) 0 ltac:(lia)) as E. change (0 * 1024) with 0 in E. rewrite E.
  unfold maskStepsR. by rewrite Nat.sub_0_r.
Qed.

Lemma omap_map_some {A B C} (f : A -> B) (g : B -> option C) (h : A -> C) (l : list A) :
  (forall a, g (f a) = Some (h a)) -> omap g (map f l) = map h l.
Proof. intros H. induction l as [|a l IH]; [done|]. cbn. rewrite H. f_equal. exact IH. Qed.
Lemma omap_map_none {A B C} (f : A -> B) (g : B -> option C) (l : list A) :
  (forall a, g (f a) = None) -> omap g (map f l) = [].
Proof. intros H. induction l as [|a l IH]; [done|]. cbn. rewrite H. exact IH. Qed.

Lemma traces nb ms n :
  sentBy (receiverActions nb ms n) = receivedBy (senderActions nb ms n) /\
  sentBy (senderActions nb ms n) = receivedBy (receiverActions nb ms n) ++ [DummyMsg 1].
Proof.
  unfold receiverActions, senderActions, sentBy, receivedBy. rewrite !omap_app. split.
  - rewrite (omap_map_some Send _ (fun m => m)) by done. rewrite (omap_map_none Recv) by done.
    rewrite (omap_map_some Recv _ (fun m => m)) by done. rewrite (omap_map_none Send) by done.
    rewrite corr_equal. cbn. by rewrite !app_nil_r.
  - rewrite (omap_map_none Recv) by done. rewrite (omap_map_some Send _ (fun m => m)) by done.
    rewrite (omap_map_none Send) by done. rewrite (omap_map_some Recv _ (fun m => m)) by done.
    rewrite mask_equal. cbn. done.
Qed.

Lemma maskS_bytes ms n fuel : forall i, i <= n -> n <= i + N.of_nat fuel ->
  bytesOf (maskStepsS fuel ms n i) = (n - i) * 3 * ms.
Proof.
  induction fuel as [|f IH]; intros i Hi Hf; cbn [maskStepsS].
  - replace (n - i) with 0 by lia. done.
  - destruct (N.ltb_spec i n) as [L|L].
    + cbn [bytesOf foldr]. fold (bytesOf (maskStepsS f ms n (i + N.min 1024 (n - i)))).
      rewrite IH by lia. replace (n - i) with (N.min 1024 (n - i) + (n - (i + N.min 1024 (n - i)))) at 3 by lia. ring.
    + replace (n - i) with 0 by lia. done.
Qed.
Lemma mask_bytes ms n : bytesOf (maskStepsR ms n) = n * 3 * ms.
Proof. rewrite <- mask_equal, maskS_bytes by lia. by rewrite N.sub_0_r. Qed.

(** ** Object reuse *)

Definition prepend (l : list N) (r : outcome (list N * list (list N))) : outcome (list N * list (list N)) :=
  match r with
  | Done (out, rest) => Done (l ++ out, rest)
  | Thrown (out, rest) => Thrown (l ++ out, rest)
  | UB => UB
  | OutOfFuel => OutOfFuel
  end.
Lemma recvRegions_out ms maps n regions : forall r msgs l out,
  recvRegions ms maps n r regions msgs (l ++ out) = prepend l (recvRegions ms maps n r regions msgs out).
Proof.
  induction regions as [|k IH]; intros r msgs l out; cbn [recvRegions]; [done|].
  destruct msgs as [|m msgs]; [done|]. destruct (_ =? _)%nat; [|done]. by rewrite <- app_assoc, IH.
Qed.

Lemma receiver_appends F enc seed ms n m c l inputs msgs o rest :
  receiverInput F enc seed ms n m (mkKReceiver c l) inputs msgs = Done (o, rest) ->
  exists out, receiverInput F enc seed ms n m (mkKReceiver c []) inputs msgs = Done (mkKReceiver (krIndex o) out, rest) /\
    krIntersection o = l ++ out.
Proof.
  unfold receiverInput. cbn [krIndex krIntersection]. destruct (negb _); [done|].
  destruct (insertItems _ _ _ _) as [c'|c'| |]; try done. destruct (binMasks _ _ _ _ _ _) as [maps|]; [|done].
  rewrite <- (app_nil_r l) at 1. rewrite recvRegions_out.
  destruct (recvRegions _ _ _ _ _ _ []) as [[out r]|[out r]| |]; cbn; try done. intros [= <- <-]. cbn. eauto.
Qed.
