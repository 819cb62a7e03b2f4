(** Proofs about complete runs of PRTY with the smallest communication. *)
From Verif Require Import Base Balanced_Model Balanced_Spec Prty_Model Prty_Spec PrtyDiff_Model PrtyDiff_Spec PrtyDiff_Proofs PrtyDiff_Proofs2 BigRun_Model BigRun_Proofs BestRun_Model BestRun_Spec Balanced_Proofs Prty_Proofs.

Lemma best_range n1 n2 : 1 <= n1 < 2 ^ 64 -> 4 <= n2 -> (6 <= hBytes n1 /\ hBytes n1 <= 16 /\ hBytes n1 <= bBytes n1 n2)%nat.
Proof.
  intros Hn H2. unfold hBytes, bBytes. assert (N.log2 n1 < 64) as HL by (apply N.log2_lt_pow2; lia).
  assert (N.log2 n1 + 2 <= N.log2 (n1 * n2)) as Hm.
  { apply N.log2_le_pow2; [nia|]. rewrite N.pow_add_r. change (2 ^ 2) with 4. pose proof (N.log2_spec n1 ltac:(lia)) as [Hs _]. nia. }
  assert (6 <= (49 + N.log2 n1) / 8) by (apply N.div_le_lower_bound; lia). assert ((49 + N.log2 n1) / 8 <= 16) by (apply N.div_le_upper_bound; lia).
  assert ((49 + N.log2 n1) / 8 <= (40 + N.log2 (n1 * n2) + 7) / 8) by (apply N.div_le_mono; lia). lia.
Qed.
Lemma bufSize_nat n h : bufSize n h = (n * h * 102 / 100)%nat.
Proof. unfold bufSize. rewrite <- (Nat2N.id (n * h * 102 / 100)). f_equal. rewrite Nat2N.inj_div. f_equal. rewrite !Nat2N.inj_mul. change (N.of_nat 102) with 102. lia. Qed.

(** One hash number. *)
Lemma best_hash e hb bb es ms h : envFine e -> (4 <= hb)%nat -> (hb <= 16)%nat -> (hb <= bb)%nat -> (0 < length ms)%nat -> Forall (fun m => m < 2 ^ 128) ms -> roomFor hb bb (bSort e h ms) ->
  NoDup (map (fun x : N * nat => key32 x.1) (map snd (filter (fun x : entry => x.1 = h) es))) ->
  exists l, bestHash e hb bb es ms h = Done l /\
    (forall x i, (h, (x, i)) ∈ es -> x ∈ ms -> i ∈ l) /\
    (forall i, i ∈ l -> exists x, (h, (x, i)) ∈ es /\ ((exists m, m ∈ ms /\ low hb m = low hb x) \/ low bb x = 0)).
Proof.
  intros [Hp Hm] H4 H16 Hhb Hne Hblk [Hroom Hdl] Hk. unfold bestHash. set (so := bSort e h ms) in *. assert (so ≡ₚ ms) as Hso by apply Hp.
  assert (length so = length ms) as Hl by (by rewrite Hso). assert (Forall (fun m => m < 2 ^ 128) so) as Hb by (by rewrite Hso).
  assert (sendBest hb bb so = Done (streamBytes hb bb so ++ replicate (bufSize (length so) hb - length (streamBytes hb bb so)) 0)) as E.
  { unfold sendBest. rewrite encode_exact by lia. rewrite <- bufSize_nat in Hroom. replace (_ <=? _)%nat with true by (symmetry; apply Nat.leb_le; lia). done. }
  assert (length (streamBytes hb bb so) < bufSize (length so) hb)%nat as Hlen.
  { destruct so as [|m0 so0]; [cbn in Hl; lia|]. rewrite stream_len. rewrite bufSize_nat. cbn [length] in Hroom |- *. replace (Datatypes.S (length so0) - 1)%nat with (length so0) in Hroom by lia. exact Hroom. }
  rewrite E. set (buf := streamBytes hb bb so ++ _) in *. unfold sendBest in E.
  destruct (match_ok (around buf (bMem e h)) hb bb _ so buf (bG1 e h) (bG2 e h) _ H4 H16 Hhb Hb Hdl E (around_holds _ _ (encode_bytes _ _ _ _ _ H16 E) (Hm h)) Hk) as (vs & Ed & Hc & Hs).
  rewrite Ed. eexists. split; [done|]. split.
  - intros x i Hx Hin. apply (Hc (x, i)).
    + apply elem_of_list_fmap. exists (h, (x, i)). split; [done|]. by apply elem_of_list_filter.
    + cbn [fst]. replace (_ <? _)%nat with true by (symmetry; by apply Nat.ltb_lt). rewrite take_ge by lia. by rewrite Hso.
  - intros i (x & Hx & <- & Hor)%Hs. apply elem_of_list_fmap in Hx as ([h' x'] & -> & Hx). apply elem_of_list_filter in Hx as [Eh Hx]. cbn [fst snd] in *. subst h'.
    exists x'.1. split; [by destruct x'|]. destruct Hor as [(m & Hm' & El)|Hz]; [left|by right]. exists m. split; [by rewrite <- Hso|done].
Qed.

Lemma best_keys P F R bins lo h : NoDup R -> allPlaced (length R) bins -> masksDistinct32 P F R -> (forall it, it ∈ concat bins -> it.1 < 2) -> (forall es : list entry, lo es ≡ₚ es) -> 
  NoDup (map (fun x : N * nat => key32 x.1) (map snd (filter (fun x : entry => x.1 = h) (lo (map (entryOf P F R) (concat bins)))))).
Proof.
  intros HR HP HM HH Hlo. rewrite Hlo, map_map. assert (NoDup (concat bins)) as Hnd.
  { apply (NoDup_fmap_1 snd). change (NoDup (map snd (concat bins))). rewrite HP. apply NoDup_seq. }
  apply NoDup_map_on.
  - intros a b Ha Hb E. apply elem_of_list_filter in Ha as [_ Ha]. apply elem_of_list_filter in Hb as [_ Hb]. apply elem_of_list_fmap in Ha as (it & -> & Hit). apply elem_of_list_fmap in Hb as (it' & -> & Hit').
    f_equal. unfold entryOf, key32 in E. cbn [fst snd] in E. apply (placed_inj R bins HP); [done|done|].
    destruct (placed_item R bins HP it Hit) as [x Hx], (placed_item R bins HP it' Hit') as [x' Hx'].
    rewrite (nth_lookup_Some _ _ 0 _ Hx), (nth_lookup_Some _ _ 0 _ Hx') in E. apply HM in E; [|by apply HH|by apply HH|by eapply elem_of_list_lookup_2|by eapply elem_of_list_lookup_2].
    subst x'. by apply (NoDup_lookup R it.2 it'.2 x).
  - apply NoDup_filter. apply NoDup_map_on; [|done]. intros a b Ha Hb E. unfold entryOf in E. injection E as E1 E2 E3. by apply (placed_inj R bins HP).
Qed.

Lemma best_run P ordB enc rs lo e R S :
  let n1 := N.of_nat (length R) in let n2 := N.of_nat (length S) in let F := fieldSizeOf n1 in let hb := hBytes n1 in let bb := bBytes n1 n2 in
  anyOrder ordB -> lightLoads enc R -> Forall (fun x => x < 2 ^ 128) R -> NoDup R -> noNeighbours R -> interpolates P F -> (forall x, henc P x < 2 ^ 128) -> masksDistinct32 P F R ->
  (forall es, lo es ≡ₚ es) -> envFine e -> 1 <= n1 -> 4 <= n2 -> n1 * n2 < 2 ^ 64 ->
  exists bins, balanced ordB enc 40 1 R rs = Done bins /\
    ((forall h, h < 2 -> roomFor hb bb (bSort e h (map (senderMask P F enc R bins h) S))) ->
     exists out, bestRun P ordB enc rs lo e R S = Done out /\
       (forall i x, R !! i = Some x -> x ∈ S -> i ∈ out) /\
       (forall i, i ∈ out -> exists x h, R !! i = Some x /\ h < 2 /\
          ((exists y, y ∈ S /\ low hb (senderMask P F enc R bins h y) = low hb (recvMask P F (point h x))) \/ low bb (recvMask P F (point h x)) = 0))).
Proof.
  intros n1 n2 F hb bb HO HL HB HR HN HI Hhe HM Hlo He Hn1 Hn2 Hn.
  destruct (balanced_light ordB enc 40 1 R rs HO) as (bins & Eb & Hbins); [done|done|done|].
  destruct (balanced_ok ordB enc 40 1 R rs HO) as [Q|(bins' & Q & _ & _ & HP & _)]; [done|done|by rewrite Q in Eb|]. rewrite Eb in Q. injection Q as <-.
  assert (forall it, it ∈ concat bins -> exists b bin, bins !! b = Some bin /\ it ∈ bin) as Hcb.
  { intros it Hit. apply elem_of_concat in Hit as (bin & Hit & Hb). apply elem_of_list_lookup in Hb as [b Hb]. by exists b, bin. }
  assert (forall it, it ∈ concat bins -> it.1 < 2) as HH.
  { intros it (b & bin & Hb & Hit)%Hcb. by destruct (Hbins b bin it Hb Hit) as (x & _ & ? & _). }
  pose proof (fieldSize_range n1) as HF. fold F in HF. exists bins. split; [done|]. intros Hroom.
  destruct (best_range n1 n2) as (H6 & H16 & Hhb); [nia|done|]. fold hb bb in H6, H16, Hhb.
  assert (0 < length S)%nat as HS by lia.
  assert (forall h, h < 2 -> exists l, bestHash e hb bb (lo (map (entryOf P F R) (concat bins))) (map (senderMask P F enc R bins h) S) h = Done l /\
    (forall i x, R !! i = Some x -> x ∈ S -> (exists it, it ∈ concat bins /\ it = (h, i)) -> i ∈ l) /\
    (forall i, i ∈ l -> exists x, R !! i = Some x /\ ((exists y, y ∈ S /\ low hb (senderMask P F enc R bins h y) = low hb (recvMask P F (point h x))) \/ low bb (recvMask P F (point h x)) = 0))) as Hone.
  { intros h Hh. destruct (best_hash e hb bb (lo (map (entryOf P F R) (concat bins))) (map (senderMask P F enc R bins h) S) h) as (l & El & Hc & Hs).
    - done.
    - lia.
    - done.
    - done.
    - by rewrite map_length.
    - apply Forall_forall. intros m Hm%elem_of_list_fmap. destruct Hm as (y & -> & _). unfold senderMask, sendMask. by apply mask_lt.
    - by apply Hroom.
    - by apply best_keys.
    - exists l. split; [done|]. split.
      + intros i x Hx HxS (it & Hit & ->). apply (Hc (recvMask P F (point h x))).
        * rewrite Hlo. apply elem_of_list_fmap. exists (h, i). split; [|done]. unfold entryOf. cbn [fst snd]. by rewrite (nth_lookup_Some _ _ 0 _ Hx).
        * destruct (Hcb _ Hit) as (b & bin & Hb & Hitb). destruct (Hbins b bin _ Hb Hitb) as (x' & Hx' & _ & Eb'). cbn [fst snd] in Hx', Eb'. rewrite Hx in Hx'. injection Hx' as <-.
          apply elem_of_list_fmap. exists x. split; [|done]. unfold senderMask. rewrite <- Eb', Nat2N.id. symmetry. by apply (send_mask P F R bins HF HI HR HN HP HB b bin (h, i)).
      + intros i (m & Hm & Hor)%Hs. rewrite Hlo in Hm. apply elem_of_list_fmap in Hm as (it & Eit & Hit). unfold entryOf in Eit. injection Eit as E1 -> ->.
        destruct (placed_item R bins HP it Hit) as [x Hx]. exists x. split; [done|]. rewrite (nth_lookup_Some _ _ 0 _ Hx), <- E1 in Hor.
        destruct Hor as [(m & Hm & E)|Hz]; [left|by right]. apply elem_of_list_fmap in Hm as (y & -> & Hy). by exists y. }
  destruct (Hone 0 ltac:(lia)) as (l0 & E0 & Hc0 & Hs0). destruct (Hone 1 ltac:(lia)) as (l1 & E1 & Hc1 & Hs1).
  exists (l0 ++ l1). split; [|split].
  - unfold bestRun. fold n1 n2 F hb bb. rewrite numBinsOf_eq, Eb by done. rewrite (blks_nodup R bins HR HN HP). rewrite (entries_ok P F R bins HP). cbv zeta.
    unfold n1. rewrite !sendHashes_eq by done. by rewrite E0, E1.
  - intros i x Hx HxS. apply elem_of_app. assert (i ∈ map snd (concat bins)) as Hi. { rewrite HP. apply elem_of_seq. apply lookup_lt_Some in Hx. lia. }
    apply elem_of_list_fmap in Hi as ([h i'] & -> & Hit). cbn [snd] in *. pose proof (HH _ Hit) as Hh. cbn [fst] in Hh.
    assert (h = 0 \/ h = 1) as [-> | ->] by lia; [left; eapply Hc0|right; eapply Hc1]; try done; eauto.
  - intros i [Hi|Hi]%elem_of_app; [destruct (Hs0 i Hi) as (x & Hx & H)|destruct (Hs1 i Hi) as (x & Hx & H)]; [exists x, 0|exists x, 1]; done.
Qed.

(** If there is not enough room, the sender writes behind its buffer. *)
Lemma best_short P ordB enc rs lo e R S : let n1 := N.of_nat (length R) in let n2 := N.of_nat (length S) in
  envFine e -> n1 < 2 ^ 64 -> (0 < length S)%nat -> (length S * hBytes n1 * 102 / 100 < bBytes n1 n2 + hBytes n1 * (length S - 1))%nat -> forall out, bestRun P ordB enc rs lo e R S <> Done out.
Proof.
  intros n1 n2 [Hp _] Hn HS Hsh out. unfold bestRun. fold n1 n2. destruct (numBinsOf _ _ _) as [m|]; [|by destruct (balanced _ _ _ _ _ _)]. destruct (balanced _ _ _ _ _ _) as [bins| | |]; [|done..].
  destruct (forallb _ _); [|done]. destruct (localEntries _ _ _ _) as [es|]; [|done]. cbv zeta. set (ms := sendHashes _ _ _ _ _ _ 0).
  assert (length (bSort e 0 ms) = length S) as El by (rewrite Hp; unfold ms, sendHashes; apply map_length).
  assert (hBytes n1 <= 16)%nat as H16.
  { unfold hBytes. destruct (N.eq_dec n1 0) as [->|]; [vm_compute; lia|]. assert (N.log2 n1 < 64) by (apply N.log2_lt_pow2; lia). assert ((49 + N.log2 n1) / 8 <= 16) by (apply N.div_le_upper_bound; lia). lia. }
  unfold bestHash at 1, sendBest. rewrite encode_exact by (rewrite ?El; done). rewrite bufSize_nat, El. replace (_ <=? _)%nat with false by (symmetry; apply Nat.leb_gt; lia). done.
Qed.
