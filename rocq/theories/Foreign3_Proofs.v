From Verif Require Import Base CuckooIndex_Model Kkrt_Model Drrn_Model DrrnFull_Model Foreign_Spec Foreign_Proofs Foreign3_Model Foreign3_Spec.

Lemma layout_reals p aes prng seed depth gs r inputs hs bins : forall b d l, layout p aes prng seed depth gs r inputs hs b bins d = Some l ->
  forall i s, (i, s) ∈ omap qReal (concat l) -> exists x a, inputs !! i = Some x /\ a ∈ r /\ s = N.lxor a x.
Proof.
  induction bins as [|bin bins IH]; intros b d l E i s Hs; cbn [layout] in E.
  { injection E as <-. by apply elem_of_nil in Hs. }
  destruct (mapM _ bin) as [es|] eqn:Ees; [|done]. destruct (layout p aes prng seed depth gs r inputs hs (S b) bins _) as [rest|] eqn:Er; [|done].
  injection E as <-. cbn [concat] in Hs. apply elem_of_list_omap in Hs as (e & He & Eq). rewrite <- app_assoc in He.
  apply elem_of_app in He as [He|He]; [|apply elem_of_app in He as [He|He]].
  - apply elem_of_list_lookup in He as [j Hj]. apply mapM_Some in Ees. destruct (Forall2_lookup_r _ _ _ _ _ Ees Hj) as (q & _ & E2). cbn beta in E2.
    unfold realEntry in E2. destruct (slotOf _ _ _ _) as [slot|]; [|done]. destruct (inputs !! _) as [x|] eqn:Ex; [|done].
    destruct (queryPosition _ _ _ _ _) as [blk off]. destruct (Bgi_Model.keyGen _ _ _ _ _ _) as [[[[k0 g0] k1] g1]| | |]; [|done..].
    destruct (readN r _) as [m|] eqn:Em; [|done]. injection E2 as <-. cbn [qReal] in Eq. injection Eq as <- <-. exists x, m. split; [done|]. split; [|done].
    unfold readN in Em. destruct (_ <? _); [|done]. by eapply elem_of_list_lookup_2.
  - apply elem_of_list_fmap in He as (q & -> & _). done.
  - eapply IH; [exact Er|]. apply elem_of_list_omap. by exists e.
Qed.

Lemma client_earned k p enc aes prng c inputs msgs out : clientOut k p enc aes prng c inputs msgs = Done out ->
  setEarned (fF k) (fMaskSize k) (maskList (cMask c) (permSize p) 0) inputs (concat msgs) out.
Proof.
  unfold clientOut. destruct (clientLayout _ _ _ _ _ _) as [l|] eqn:El; [|done]. destruct (recvInit _ _) as [o|o| |] eqn:Eo; try done.
  destruct (receiverInput _ _ _ _ _ _ _ _ _) as [[o' rest]|[o' rest]| |] eqn:E; try done. intros [= <-].
  assert (krIntersection o = []) as E0. { unfold recvInit in Eo. destruct (init _ _); try done. by injection Eo as <-. }
  apply kkrt_earned in E as (new & En & _ & P). rewrite E0 in En. cbn [app] in En. rewrite En. clear En E0.
  split; [apply NoDup_remove_dups|]. intros i Hi. apply elem_of_remove_dups, elem_of_list_fmap in Hi as (n & -> & Hn).
  destruct (P n Hn) as (Ln & m & Hm & s & b & Es & ->). rewrite (list_lookup_fmap snd) in Es. destruct (omap qReal (concat l) !! N.to_nat n) as [[i s']|] eqn:Er; [|done].
  injection Es as <-. unfold clientLayout in El. destruct (negb _); [done|]. destruct (domainParams _ _ _) as [[d g]| | |]; try done.
  destruct (clientBins _ _) as [bins|]; [|done]. apply elem_of_list_lookup_2 in Er. destruct (layout_reals _ _ _ _ _ _ _ _ _ _ _ _ _ El _ _ Er) as (x & a & Hx & Ha & ->).
  exists x, a, b, (fF k b (N.lxor a x) mod 256 ^ fMaskSize k). done.
Qed.

Lemma rightSizes_regions nS msgs i : rightSizes stepSize nS msgs -> (i < (nS + stepSize - 1) / stepSize)%nat ->
  exists msg, msgs !! i = Some msg /\ length msg = (Nat.min (nS - (0 + i) * stepSize) stepSize * 3)%nat.
Proof.
  intros H Hi. assert (0 < stepSize)%nat as Hs by (unfold stepSize; lia). destruct (H i) as (msg & E & L).
  - pose proof (Nat.mul_div_le (nS + stepSize - 1) stepSize ltac:(lia)) as Hd. revert Hd Hi. generalize ((nS + stepSize - 1) / stepSize)%nat as d. intros d Hd Hi.
    assert (S i * stepSize <= stepSize * d)%nat by nia. cbn [Nat.mul] in *. lia.
  - exists msg. split; [done|]. rewrite L. cbn [Nat.add]. lia.
Qed.

Lemma kkrt_total F enc seed ms nS nR o R msgs msgs' o' rest : receiverInput F enc seed ms nS nR o R msgs = Done (o', rest) -> rightSizes stepSize nS msgs' ->
  exists o2, receiverInput F enc seed ms nS nR o R msgs' = Done (o2, drop ((nS + stepSize - 1) / stepSize) msgs') /\ krIndex o2 = krIndex o'.
Proof.
  intros E H. unfold receiverInput in *. destruct (negb _); [done|]. destruct (insertItems _ _ _ _) as [cc|cc| |]; try done.
  destruct (binMasks _ _ _ _ _ _ _) as [maps|]; [|done].
  destruct (recvRegions_total F ms maps nS ((nS + stepSize - 1) / stepSize) 0 msgs' (krIntersection o)) as [res Er].
  { intros i Hi. by apply rightSizes_regions. }
  rewrite Er. eexists. split; [reflexivity|]. destruct (recvRegions _ _ _ _ _ msgs _) as [[q1 q2]|[q1 q2]| |]; try done. by injection E as <- _.
Qed.

Lemma client_total k p enc aes prng c inputs msgs msgs' out : clientOut k p enc aes prng c inputs msgs = Done out -> rightSizes stepSize (permSize p) msgs' ->
  exists out', clientOut k p enc aes prng c inputs msgs' = Done out'.
Proof.
  unfold clientOut. destruct (clientLayout _ _ _ _ _ _) as [l|]; [|done]. destruct (recvInit _ _) as [o|o| |]; try done. intros E H.
  destruct (receiverInput _ _ _ _ _ _ _ _ msgs) as [[o' rest]|[o' rest]| |] eqn:E1; try done. destruct (kkrt_total _ _ _ _ _ _ _ _ _ _ _ _ E1 H) as (o2 & E2 & _).
  rewrite E2. by eexists.
Qed.

(** ** Server 0 *)

Lemma readMasks_ok rs pi0 piS0 cnt : forall i, (i + cnt = length pi0)%nat -> (forall q, q ∈ drop i pi0 -> (q < length rs)%nat) -> (cnt = 0 \/ i + cnt <= length piS0)%nat ->
  exists l, readMasks rs pi0 piS0 i cnt = Done l /\ length l = cnt /\
    forall j v, l !! j = Some v -> exists q a w, pi0 !! (i + j)%nat = Some q /\ rs !! q = Some a /\ piS0 !! (i + j)%nat = Some w /\ v = N.lxor a w.
Proof.
  induction cnt as [|cnt IH]; intros i L H1 H2; cbn [readMasks]; [exists []; split; [done|]; split; [done|]; intros j v E; by rewrite lookup_nil in E|].
  destruct (lookup_lt_is_Some_2 pi0 i ltac:(lia)) as [q Eq]. rewrite Eq. pose proof (drop_S _ _ _ Eq) as Ed.
  assert (q < length rs)%nat as Hq by (apply H1; rewrite Ed; left). destruct (lookup_lt_is_Some_2 _ _ Hq) as [a Ea]. rewrite Ea.
  destruct (lookup_lt_is_Some_2 piS0 i ltac:(lia)) as [w Ew]. rewrite Ew.
  destruct (IH (S i) ltac:(lia)) as (l & El & Ll & P); [intros q' Hq'; apply H1; rewrite Ed; by right|lia|]. rewrite El.
  exists (N.lxor a w :: l). split; [done|]. split; [cbn; lia|]. intros [|j] v E.
  - injection E as <-. exists q, a, w. by rewrite !Nat.add_0_r.
  - cbn in E. destruct (P j v E) as (q' & a' & w' & P1 & P2 & P3 & P4). exists q', a', w'. by replace (i + S j)%nat with (S i + j)%nat by lia.
Qed.
Lemma readMasks_inv rs pi0 piS0 cnt : forall i l, (i + cnt = length pi0)%nat -> readMasks rs pi0 piS0 i cnt = Done l ->
  (forall q, q ∈ drop i pi0 -> (q < length rs)%nat) /\ (cnt = 0 \/ i + cnt <= length piS0)%nat.
Proof.
  induction cnt as [|cnt IH]; intros i l L; cbn [readMasks]; [intros _; split; [|by left]; intros q Hq; rewrite drop_ge in Hq by lia; by apply elem_of_nil in Hq|].
  destruct (pi0 !! i) as [q|] eqn:Eq; [|done]. destruct (rs !! q) as [a|] eqn:Ea; [|done]. destruct (piS0 !! i) as [w|] eqn:Ew; [|done].
  destruct (readMasks _ _ _ _ _) as [l'| | |] eqn:E; try done. intros _. destruct (IH (S i) l' ltac:(lia) E) as [H1 H2]. split.
  - intros q' Hq'. rewrite (drop_S _ _ _ Eq) in Hq'. apply elem_of_cons in Hq' as [->|Hq']; [by eapply lookup_lt_Some|by apply H1].
  - right. apply lookup_lt_Some in Ew. lia.
Qed.
Lemma readMasks_cases rs pi0 piS0 cnt : forall i, (exists l, readMasks rs pi0 piS0 i cnt = Done l) \/ readMasks rs pi0 piS0 i cnt = UB.
Proof.
  induction cnt as [|cnt IH]; intros i; cbn [readMasks]; [by left; eexists|].
  destruct (pi0 !! i); [|by right]. destruct (rs !! _); [|by right]. destruct (piS0 !! i); [|by right]. destruct (IH (S i)) as [[l ->]| ->]; [left; by eexists|by right].
Qed.
Lemma addShares_spec shares : forall a msg1 i, length a = length shares ->
  ((shares = [] \/ i + length shares <= length msg1)%nat /\ exists l, addShares shares a msg1 i = Done l /\ length l = length shares /\
     forall j v, l !! j = Some v -> exists s x m, shares !! j = Some s /\ a !! j = Some x /\ msg1 !! (i + j)%nat = Some m /\ v = N.lxor (N.lxor s x) m) \/
  (~ (shares = [] \/ i + length shares <= length msg1)%nat /\ addShares shares a msg1 i = UB).
Proof.
  induction shares as [|s shares IH]; intros a msg1 i L; cbn [addShares].
  { left. split; [by left|]. exists []. split; [done|]. split; [done|]. intros j v E. by rewrite lookup_nil in E. }
  destruct a as [|x a]; [done|]. cbn [length] in L. destruct (msg1 !! i) as [m|] eqn:Em.
  - pose proof (lookup_lt_Some _ _ _ Em) as Hi. destruct (IH a msg1 (S i) ltac:(lia)) as [[H (l & El & Ll & P)]|[H El]]; rewrite El.
    + left. split; [right; cbn [length]; destruct H as [->|H]; cbn; lia|]. eexists. split; [reflexivity|]. split; [cbn; lia|]. intros [|j] v E.
      * injection E as <-. exists s, x, m. by rewrite Nat.add_0_r.
      * cbn in E. destruct (P j v E) as (s' & x' & m' & P1 & P2 & P3 & P4). exists s', x', m'. by replace (i + S j)%nat with (S i + j)%nat by lia.
    + right. split; [|done]. intros [?|H2]; [done|]. apply H. right. cbn [length] in H2. lia.
  - right. split; [|done]. apply lookup_ge_None in Em. intros [?|H2]; [done|]. cbn [length] in H2. lia.
Qed.

Lemma combine_spec shares pi0 piS0 rs msg1 : length pi0 = length shares ->
  (longEnough shares pi0 piS0 rs msg1 -> exists out, server0Combine shares pi0 piS0 rs msg1 = Done out /\ length out = length shares /\
     forall j v, out !! j = Some v -> exists s q a w m, shares !! j = Some s /\ pi0 !! j = Some q /\ rs !! q = Some a /\ piS0 !! j = Some w /\ msg1 !! j = Some m /\
       v = N.lxor (N.lxor s (N.lxor a w)) m) /\
  (~ longEnough shares pi0 piS0 rs msg1 -> server0Combine shares pi0 piS0 rs msg1 = UB).
Proof.
  intros L. unfold server0Combine, longEnough. rewrite L, Nat.eqb_refl. cbn [negb]. split.
  - intros (H1 & H2 & H3). destruct (readMasks_ok rs pi0 piS0 (length shares) 0) as (a & Ea & La & P); [lia|by rewrite drop_0|lia|]. rewrite Ea.
    destruct (addShares_spec shares a msg1 0 La) as [[_ (l & El & Ll & P2)]|[H El]]; [|exfalso; apply H; right; lia].
    exists l. split; [done|]. split; [done|]. intros j v E. destruct (P2 j v E) as (s & x & m & Q1 & Q2 & Q3 & ->). destruct (P j x Q2) as (q & a' & w & R1 & R2 & R3 & ->).
    by exists s, q, a', w, m.
  - intros H. destruct (readMasks_cases rs pi0 piS0 (length shares) 0) as [[a Ea]|Ea]; rewrite Ea; [|done].
    destruct (readMasks_inv rs pi0 piS0 (length shares) 0 a ltac:(lia) Ea) as [H1 H2]. rewrite drop_0 in H1.
    destruct (readMasks_ok rs pi0 piS0 (length shares) 0) as (a' & Ea' & La & _); [lia|by rewrite drop_0|done|]. rewrite Ea in Ea'. injection Ea' as <-.
    destruct (addShares_spec shares a msg1 0 La) as [[H3 _]|[_ El]]; [|done]. exfalso. apply H. split; [done|]. destruct shares; cbn [length] in *; [split; lia|].
    destruct H3 as [?|H3]; [done|]. split; lia.
Qed.

(** On vectors of the right lengths this is the server of [Drrn_Model]. *)
Lemma combine_agrees shares pi0 piS0 rs msg1 out : length pi0 = length shares -> length piS0 = length shares -> length msg1 = length shares ->
  server0Combine shares pi0 piS0 rs msg1 = Done out -> server0Input shares msg1 rs pi0 piS0 = Some out.
Proof.
  intros L1 L2 L3 E. destruct (combine_spec shares pi0 piS0 rs msg1 L1) as [A B]. unfold server0Input. apply mapM_Some.
  assert (longEnough shares pi0 piS0 rs msg1 \/ ~ longEnough shares pi0 piS0 rs msg1) as [H|H].
  { unfold longEnough. destruct (decide (Forall (fun q => q < length rs)%nat pi0)) as [F|F]; rewrite Forall_forall in F; [left; split; [done|lia]|right; intros [G _]; done]. }
  - destruct (A H) as (out' & E' & Lo & P). rewrite E in E'. injection E' as <-. apply Forall2_same_length_lookup. split.
    + rewrite !zip_with_length. lia.
    + intros j [[s m] [q w]] v Ez Ev. destruct (P j v Ev) as (s' & q' & a & w' & m' & P1 & P2 & P3 & P4 & P5 & ->).
      rewrite lookup_zip_with in Ez. rewrite !lookup_zip_with in Ez. rewrite P1, P5, P2, P4 in Ez. cbn in Ez. injection Ez as <- <- <- <-. cbn. by rewrite P3.
  - rewrite (B H) in E. done.
Qed.

Lemma combine_refused shares pi0 piS0 rs msg1 : length pi0 ≠ length shares -> server0Combine shares pi0 piS0 rs msg1 = Thrown [].
Proof. intros H. unfold server0Combine. apply Nat.eqb_neq in H. by rewrite H. Qed.
