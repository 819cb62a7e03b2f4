(** [MultiKey]. *)
From Verif Require Import Base Bgi_Model Bgi_Spec Bgi_Proofs BgiFull_Proofs BgiSum_Proofs.

Lemma seq_drop n : forall a m, drop n (seq a m) = seq (a + n) (m - n).
Proof.
  induction n as [|n IH]; intros a m; [by rewrite drop_0, Nat.add_0_r, Nat.sub_0_r|].
  destruct m as [|m]; [done|]. cbn [seq skipn]. rewrite IH. f_equal; lia.
Qed.

Section multi.
Context (aes : bool -> N -> N) (keys : list (list N * list N)) (D gs : nat).
Hypothesis Hkeys : Forall (fun kg => length kg.1 = S D /\ length kg.2 = gs) keys.
Hypothesis Hgs : (0 < gs)%nat.
Hypothesis HD : N.of_nat D < 2 ^ 64.
Local Notation L := (gs * 128)%nat.
Local Notation E := (N.to_nat (2 ^ N.of_nat D)).

Definition keyRoot (kg : list N * list N) : N * list N * list N := (hd 0 kg.1, tail kg.1, kg.2).
Definition padRoot : N * list N * list N := (0, replicate D 0, replicate gs 0).
Definition mroots : list (N * list N * list N) :=
  map keyRoot keys ++ replicate (8 * ((length keys + 7) / 8) - length keys) padRoot.

(** The row of position [r]. *)
Definition rowAt (r : nat) : list N := map (fun kg => bit2N (evalBit aes kg.1 kg.2 (N.of_nat r))) keys.

(** Every lane ends in leaf [x]. *)
Definition AtLeaf (x : N) (ls : list lane) : Prop :=
  Forall2 (fun r l => lStack l !! D = Some (traverse aes r.1.1 r.1.2 x) /\ lG l = r.2) mroots ls.

Lemma mroots_g : Forall (fun r => length r.2 = gs) mroots.
Proof using Hkeys.
  clear HD Hgs. apply Forall_app. split.
  - apply Forall_fmap. eapply Forall_impl; [exact Hkeys|]. intros [k g] [_ H]. exact H.
  - apply Forall_replicate. cbn. apply replicate_length.
Qed.

Lemma AtLeaf_good x ls : GoodLanes aes D mroots (N.of_nat D) x ls -> AtLeaf x ls.
Proof using.
  clear. intros H. eapply Forall2_impl; [exact H|]. intros r l (Ls & Hc & Lc & Hg & Hs). split; [|done].
  rewrite (Hs D) by lia. rewrite Nat.sub_diag. change (2 ^ N.of_nat 0) with 1. rewrite N.div_1_r, take_ge by lia. done.
Qed.

Lemma block_ok k0 cws g x gi w j : g !! gi = Some w -> (j < 128)%nat ->
  expandBlock (N.lxor (leafBlock aes (traverse aes k0 cws x) gi) (maskIf (lsb (traverse aes k0 cws x)) w)) !! j
  = Some (bit2N (evalBit aes (k0 :: cws) g (x * (N.of_nat (length g) * 128) + N.of_nat (gi * 128 + j)))).
Proof using.
  clear. intros Hw Hj. pose proof (lookup_lt_Some _ _ _ Hw) as Hgi.
  rewrite <- (leafBytes_eval aes k0 cws g x (N.of_nat (gi * 128 + j))) by lia. rewrite Nat2N.id. unfold leafBytes.
  symmetry. apply lookup_concat_fixed; [| |done].
  - apply Forall_forall. intros l Hl. apply elem_of_list_fmap in Hl as (? & -> & _). done.
  - rewrite (list_lookup_fmap expandBlock), leafWords_lookup, Hw. done.
Qed.

Lemma blocks_ok x ls gi : AtLeaf x ls -> (gi < gs)%nat ->
  exists cols, mapM (laneBlock aes D gi) ls = Some cols /\ length cols = length mroots /\
    forall i k0 cws g j, mroots !! i = Some (k0, cws, g) -> (j < 128)%nat ->
      exists col, cols !! i = Some col /\ col !! j = Some (bit2N (evalBit aes (k0 :: cws) g (x * N.of_nat (gs * 128) + N.of_nat (gi * 128 + j)))).
Proof using Hkeys.
  clear Hgs HD. intros H Hgi. unfold AtLeaf in H. pose proof mroots_g as Fg. clear Hkeys.
  induction H as [|[[k0 cws] g] l rs ls (Hs & Hg) _ IH].
  - exists []. done.
  - apply Forall_cons in Fg as [Hlg Fg]. cbn [fst snd] in *. destruct IH as (cols & Ec & Lc & Hc); [done|].
    destruct (lookup_lt_is_Some_2 g gi) as [w Hw]; [lia|].
    assert (laneBlock aes D gi l = Some (expandBlock (N.lxor (leafBlock aes (traverse aes k0 cws x) gi) (maskIf (lsb (traverse aes k0 cws x)) w)))) as El
      by (unfold laneBlock; by rewrite Hs, Hg, Hw).
    cbn [mapM]. rewrite El. cbn [mbind option_bind]. rewrite Ec. cbn [mbind option_bind mret option_ret]. eexists. split; [reflexivity|].
    split; [by cbn; rewrite Lc|]. intros i k1 cws1 g1 j Hi Hj. destruct i as [|i]; cbn in Hi.
    + injection Hi as <- <- <-. eexists. split; [reflexivity|]. rewrite (block_ok _ _ _ _ _ _ _ Hw Hj). do 3 f_equal. lia.
    + apply (Hc i); done.
Qed.

Lemma fill_ok x ls gi : AtLeaf x ls -> (gi < gs)%nat ->
  exists cols, mapM (laneBlock aes D gi) ls = Some cols /\
    fillBuff (take (length keys) cols) = map (fun j => rowAt (N.to_nat x * L + gi * 128 + j)) (seq 0 128).
Proof using Hkeys.
  clear Hgs HD. intros H Hgi. destruct (blocks_ok x ls gi H Hgi) as (cols & Ec & Lc & Hc). exists cols. split; [done|].
  unfold fillBuff. apply list_eq. intros j. destruct (decide (j < 128)%nat) as [Hj|Hj].
  2:{ rewrite !lookup_ge_None_2; [done| |]; rewrite map_length, seq_length; lia. }
  rewrite !lookup_map_seq by done. f_equal. unfold rowAt.
  assert (length keys <= length mroots)%nat as Lm by (unfold mroots; rewrite app_length, map_length; lia).
  apply list_eq_same_length with (n := length keys); [by rewrite map_length|rewrite map_length, take_length; lia|].
  intros i a b Hi Ha Hb. destruct (lookup_lt_is_Some_2 keys i Hi) as [[k g] Hk].
  rewrite (list_lookup_fmap _ keys), Hk in Hb. injection Hb as <-. cbn [fst snd].
  assert (Hroot : mroots !! i = Some (keyRoot (k, g))).
  { unfold mroots. rewrite lookup_app_l by (by rewrite map_length). by rewrite (list_lookup_fmap keyRoot), Hk. }
  pose proof (proj1 (Forall_lookup _ _) Hkeys _ _ Hk) as [Lk _]. cbn in Lk. destruct k as [|k0 cws]; [done|].
  unfold keyRoot in Hroot. cbn in Hroot. destruct (Hc i _ _ _ j Hroot Hj) as (col & Hcol & Hcj).
  rewrite (list_lookup_fmap _ (take _ cols)), lookup_take, Hcol in Ha by done. injection Ha as <-. rewrite Hcj. cbn. do 2 f_equal. lia.
Qed.

(** State after [r] calls. *)
Definition MInv (r : nat) (o : multiKey) : Prop :=
  exists lf d ls buff gi b, o = mkMulti (length keys) gs (N.of_nat D) d (N.of_nat lf) gi b ls buff /\
    (r + L + 128 = lf * L + gi * 128 + b)%nat /\ (gi <= gs)%nat /\ (b <= 128)%nat /\ (lf <= E)%nat /\
    (lf = 0%nat -> gi = gs /\ b = 128%nat) /\
    ((b < 128)%nat -> (0 < gi)%nat /\ buff = map (fun j => rowAt ((lf - 1) * L + (gi - 1) * 128 + j)) (seq 0 128)) /\
    ((lf < E)%nat -> exists d', d = N.of_nat d' /\ (d' <= D)%nat /\ GoodLanes aes D mroots (N.of_nat d') (N.of_nat lf) ls) /\
    ((0 < lf)%nat -> AtLeaf (N.of_nat (lf - 1)) ls).

(** [gi < gs], [x + 1] the number of leaves visited: the block is expanded and its first row returned. *)
Lemma refill_ok r d x gi ls buff :
  (r = x * L + gi * 128)%nat -> (gi < gs)%nat -> (S x <= E)%nat -> AtLeaf (N.of_nat x) ls ->
  ((S x < E)%nat -> exists d', d = N.of_nat d' /\ (d' <= D)%nat /\ GoodLanes aes D mroots (N.of_nat d') (N.of_nat (S x)) ls) ->
  exists o', mkYield aes (mkMulti (length keys) gs (N.of_nat D) d (N.of_nat (S x)) gi 128 ls buff) = Done (o', rowAt r) /\
    MInv (S r) o'.
Proof using Hkeys Hgs.
  clear HD. intros Hr Hgi Hx HA HG. unfold mkYield. cbn [mkKeys mkGSize mkDEnd mkD mkLeaf mkGIdx mkBIdx mkLanes mkBuff].
  rewrite Nat.eqb_refl. destruct (Nat.eqb_spec gi gs) as [|_]; [lia|]. rewrite Nat2N.id.
  destruct (fill_ok _ _ _ HA Hgi) as (cols & -> & Ef). rewrite Ef. rewrite lookup_map_seq by lia.
  eexists. split; [f_equal; f_equal; rewrite Hr; f_equal; lia|].
  exists (S x), d, ls, (map (fun j => rowAt (x * L + gi * 128 + j)) (seq 0 128)), (S gi), 1%nat.
  split; [by rewrite Nat2N.id|]. split; [lia|]. split; [lia|]. split; [lia|]. split; [done|]. split; [done|].
  split; [|split; [done|]].
  - intros _. split; [lia|]. apply map_ext. intros j. f_equal. lia.
  - intros _. by replace (S x - 1)%nat with x by lia.
Qed.

Lemma mkYield_ok r o : (r < E * L)%nat -> MInv r o -> exists o', mkYield aes o = Done (o', rowAt r) /\ MInv (S r) o'.
Proof using Hkeys Hgs HD.
  intros Hr (lf & d & ls & buff & gi & b & -> & Er & Hgi & Hb & Hlf & H0 & Hbuff & HG & HA).
  destruct (decide (b = 128%nat)) as [->|Hb'].
  - destruct (decide (gi = gs)) as [->|Hgi'].
    + (* next leaf *)
      assert (r = lf * L)%nat as -> by lia. assert (lf < E)%nat as Hlt by nia.
      destruct (HG Hlt) as (d' & -> & Hd' & HG').
      destruct (descend_ok aes D mroots (N.of_nat lf) D d' ls Hd' ltac:(lia) HG') as (ls' & Ed & HGs).
      pose proof (AtLeaf_good _ _ HGs) as HA'.
      destruct (refill_ok (lf * L) (ascend (N.of_nat D) (N.of_nat lf)) lf 0 ls' buff) as (o' & Ey & HI); [lia|lia|lia|done| |].
      { intros Hs. destruct (GoodLanes_next aes D mroots (N.of_nat lf) ls') as (d2 & E2 & H2 & HG2); [lia|done|done|].
        exists d2. replace (N.of_nat (S lf)) with (N.of_nat lf + 1) by lia. done. }
      exists o'. split; [|done]. rewrite <- Ey. unfold mkYield. cbn [mkKeys mkGSize mkDEnd mkD mkLeaf mkGIdx mkBIdx mkLanes mkBuff].
      rewrite !Nat.eqb_refl. destruct (N.eqb_spec (N.of_nat lf) (2 ^ N.of_nat D)) as [|_]; [lia|].
      rewrite Nat2N.id, Ed. destruct (Nat.eqb_spec 0 gs) as [|_]; [lia|].
      replace (N.of_nat lf + 1) with (N.of_nat (S lf)) by lia. done.
    + (* next block *)
      assert (lf ≠ 0)%nat as Hlf0 by (intros X; apply H0 in X; lia). destruct lf as [|x]; [done|].
      specialize (HA ltac:(lia)). replace (S x - 1)%nat with x in HA by lia.
      apply refill_ok; [lia|lia|lia|done|done].
  - (* next row *)
    assert (b < 128)%nat as Hb2 by lia. destruct (Hbuff Hb2) as [Hgi0 ->].
    assert (lf ≠ 0)%nat as Hlf0 by (intros X; apply H0 in X; lia).
    unfold mkYield. cbn [mkKeys mkGSize mkDEnd mkD mkLeaf mkGIdx mkBIdx mkLanes mkBuff].
    destruct (Nat.eqb_spec b 128) as [|_]; [done|]. rewrite lookup_map_seq by done.
    assert ((lf - 1) * L + (gi - 1) * 128 + b = r)%nat as -> by nia.
    eexists. split; [reflexivity|].
    exists lf, d, ls, (map (fun j => rowAt ((lf - 1) * L + (gi - 1) * 128 + j)) (seq 0 128)), gi, (S b).
    split; [done|]. split; [lia|]. split; [done|]. split; [lia|]. split; [done|]. split; [intros; lia|].
    split; [intros; split; done|]. split; done.
Qed.

Lemma mkYield_end o : MInv (E * L) o -> exists o', mkYield aes o = Thrown (o', []) /\ MInv ((E - 1) * L) o'.
Proof using Hgs.
  clear HD Hkeys. intros (lf & d & ls & buff & gi & b & -> & Er & Hgi & Hb & Hlf & H0 & Hbuff & _ & HA).
  assert (lf = E)%nat as -> by nia. assert (gi = gs) as -> by nia. assert (b = 128)%nat as -> by lia.
  assert (0 < E)%nat as HE. { assert (2 ^ N.of_nat D ≠ 0) by (by apply N.pow_nonzero). lia. }
  unfold mkYield. cbn [mkKeys mkGSize mkDEnd mkD mkLeaf mkGIdx mkBIdx mkLanes mkBuff].
  rewrite !Nat.eqb_refl, N2Nat.id, N.eqb_refl. eexists. split; [reflexivity|].
  exists E, d, ls, buff, 0%nat, 128%nat. rewrite N2Nat.id. split; [done|]. split; [nia|]. split; [lia|]. split; [done|]. split; [done|].
  split; [lia|]. split; [lia|]. split; [lia|]. done.
Qed.

Lemma yields_ok n : forall r o, (r + n <= E * L)%nat -> MInv r o ->
  exists o', yields aes n o = Done (o', map rowAt (seq r n)) /\ MInv (r + n) o'.
Proof using Hkeys Hgs HD.
  induction n as [|n IH]; intros r o Hr HI; cbn [yields].
  - exists o. split; [done|]. by rewrite Nat.add_0_r.
  - destruct (mkYield_ok r o ltac:(lia) HI) as (o1 & -> & HI1).
    destruct (IH (S r) o1 ltac:(lia) HI1) as (o2 & -> & HI2). exists o2. split; [done|].
    by replace (r + S n)%nat with (S r + n)%nat by lia.
Qed.

(** ** Initialisation *)

Definition keyLane (kg : list N * list N) : lane := mkLane (hd 0 kg.1 :: replicate D 0) (tail kg.1 ++ [0]) kg.2.
Definition padLane : lane := mkLane (replicate (S D) 0) (replicate (S D) 0) (replicate gs 0).

Lemma setKeys_ok nk d de lf gi b buff : forall todo done pad, Forall (fun kg => length kg.1 = S D /\ length kg.2 = gs) todo ->
  (length todo <= pad)%nat ->
  setKeys (length done) todo (mkMulti nk gs de d lf gi b (map keyLane done ++ replicate pad padLane) buff) =
  Done (mkMulti nk gs de d lf gi b (map keyLane (done ++ todo) ++ replicate (pad - length todo) padLane) buff).
Proof using.
  clear. induction todo as [|[k g] todo IH]; intros dn pad F Hp; cbn [setKeys].
  - rewrite app_nil_r. cbn [length]. by rewrite Nat.sub_0_r.
  - apply Forall_cons in F as [[Lk Lg] F]. cbn [fst snd length] in *. destruct pad as [|pad]; [lia|].
    unfold setKey. cbn [mkKeys mkGSize mkDEnd mkD mkLeaf mkGIdx mkBIdx mkLanes mkBuff].
    rewrite lookup_app_r by (by rewrite map_length). rewrite map_length, Nat.sub_diag. cbn [replicate lookup list_lookup].
    assert (length (lCw padLane) = S D) as -> by (cbn; by rewrite replicate_length).
    rewrite Lk, Lg, !Nat.eqb_refl. cbn [negb orb]. destruct k as [|k0 cws]; [done|]. injection Lk as Lk.
    cbn [padLane lStack replicate andThen obind].
    assert (drop (length cws) (lCw padLane) = [0]) as Ed.
    { cbn [padLane lCw]. rewrite drop_replicate, Lk. by replace (S D - D)%nat with 1%nat by lia. }
    rewrite Ed.
    rewrite insert_app_r_alt by (by rewrite map_length). rewrite map_length, Nat.sub_diag. cbn [insert list_insert].
    specialize (IH (dn ++ [((k0 :: cws), g)]) pad F ltac:(lia)). rewrite app_length in IH. cbn [length] in IH.
    rewrite Nat.add_1_r, (map_app keyLane dn [_]) in IH. rewrite <- !app_assoc in IH. cbn [map app] in IH. exact IH.
Qed.

Lemma multiInit_ok : keys ≠ [] -> exists o, multiInit keys = Done o /\ MInv 0 o.
Proof using Hkeys Hgs.
  clear HD. intros Hne.
  assert (multiInit keys = setKeys 0 keys (mkInit (length keys) (S D) gs)) as ->.
  { clear - Hkeys Hne. destruct keys as [|[k g] ks]; [done|]. apply Forall_cons in Hkeys as [[Lk Lg] _]. cbn in Lk, Lg.
    unfold multiInit. by rewrite Lk, Lg. }
  unfold mkInit.
  assert (length keys <= 8 * ((length keys + 7) / 8))%nat as Hpad by lia.
  pose proof (setKeys_ok (length keys) 0 (N.of_nat (S D - 1)) 0 gs 128 (replicate 128 (replicate (length keys) 0)) keys []
    (8 * ((length keys + 7) / 8)) Hkeys Hpad) as Es.
  cbn [length map app] in Es. fold padLane. rewrite Es. eexists. split; [reflexivity|].
  exists 0%nat, 0, (map keyLane keys ++ replicate (8 * ((length keys + 7) / 8) - length keys) padLane),
    (replicate 128 (replicate (length keys) 0)), gs, 128%nat.
  split; [by replace (S D - 1)%nat with D by lia|]. split; [lia|]. split; [done|]. split; [done|]. split; [lia|].
  split; [done|]. split; [lia|]. split; [|lia].
  intros _. exists 0%nat. split; [done|]. split; [lia|]. unfold GoodLanes, mroots. apply Forall2_app.
  - apply Forall2_fmap_2, Forall_Forall2_diag. eapply Forall_impl; [exact Hkeys|]. intros [k' g'] [Lk' Lg']. cbn in Lk', Lg'.
    destruct k' as [|k0' cws']; [done|]. injection Lk' as Lk'. unfold GoodLane, keyRoot, keyLane. cbn [lStack lCw lG fst snd hd tail length].
    rewrite replicate_length. split; [done|]. split; [by rewrite <- Lk', take_app|]. split; [done|]. split; [done|].
    intros j Hj _. assert (j = 0%nat) as -> by lia. done.
  - apply Forall2_replicate. unfold GoodLane, padRoot, padLane. cbn [lStack lCw lG fst snd]. rewrite !replicate_length.
    split; [done|]. split; [rewrite take_replicate; by rewrite Nat.min_l by lia|]. split; [done|]. split; [done|].
    intros j Hj _. assert (j = 0%nat) as -> by lia. done.
Qed.

Lemma multi_ok : keys ≠ [] -> exists o, multiInit keys = Done o /\
  (forall n, (n <= E * L)%nat -> exists o', yields aes n o = Done (o', map rowAt (seq 0 n))) /\
  exists o1 o2, yields aes (E * L) o = Done (o1, map rowAt (seq 0 (E * L))) /\ mkYield aes o1 = Thrown (o2, []) /\
    exists o3, yields aes L o2 = Done (o3, map rowAt (seq ((E - 1) * L) L)).
Proof using Hkeys Hgs HD.
  intros Hne. destruct (multiInit_ok Hne) as (o & Eo & HI). exists o. split; [done|]. split.
  - intros n Hn. destruct (yields_ok n 0 o Hn HI) as (o' & Ey & HI'). by exists o'.
  - destruct (yields_ok (E * L) 0 o (le_n _) HI) as (o1 & Ey & HI1). destruct (mkYield_end _ HI1) as (o2 & E2 & HI2).
    exists o1, o2. split; [done|]. split; [done|].
    assert (0 < E)%nat as HE. { assert (2 ^ N.of_nat D ≠ 0) by (by apply N.pow_nonzero). lia. }
    destruct (yields_ok L ((E - 1) * L) o2) as (o3 & E3 & _); [nia|done|]. by exists o3.
Qed.
End multi.
