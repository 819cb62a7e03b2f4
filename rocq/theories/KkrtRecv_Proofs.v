(** Proofs about the KKRT receiver and the whole protocol. *)
From Verif Require Import Base CuckooIndex_Model CuckooIndex_Spec CuckooIndex_Proofs Kkrt_Model Kkrt_Proofs.

(** ** The table after hashing *)

Lemma omap_nodup_lookup {A B} (f : A -> option B) (v : list A) : forall a a' w w' y, NoDup (omap f v) ->
  v !! a = Some w -> v !! a' = Some w' -> f w = Some y -> f w' = Some y -> a = a'.
Proof.
  assert (forall (v : list A) (a : nat) w y, v !! a = Some w -> f w = Some y -> y ∈ omap f v) as In.
  { intros v0 a w y H1 H2. apply elem_of_list_omap. exists w. split; [|done]. by eapply elem_of_list_lookup_2. }
  induction v as [|z v IH]; intros a a' w w' y ND Ha Ha' E E'; [done|].
  destruct a as [|a], a' as [|a']; [done| | |].
  - cbn in Ha. injection Ha as ->. cbn in ND. rewrite E in ND. apply NoDup_cons in ND as [Hn _].
    exfalso. apply Hn. by eapply In.
  - cbn in Ha'. injection Ha' as ->. cbn in ND. rewrite E' in ND. apply NoDup_cons in ND as [Hn _].
    exfalso. apply Hn. by eapply In.
  - f_equal. eapply (IH a a' w w' y); try done. cbn in ND. destruct (f z); [|done]. by apply NoDup_cons in ND as [_ ?].
Qed.

Record Table (enc : N -> N) (nb : N) (R : list N) (c : Cuckoo) : Prop := {
  tb_len : N.of_nat (length (cBins c)) = nb;
  tb_word : forall a w, cBins c !! a = Some w -> isEmpty w = false ->
     exists x j, R !! N.to_nat (wordIdx w) = Some x /\
       cHashes c !! N.to_nat (wordIdx w) = Some (N.lxor (enc x) x) /\ (j < 3) /\
       cand nb (N.lxor (enc x) x) j = N.of_nat a;
  tb_stored : forall i x, R !! i = Some x -> exists a w, cBins c !! a = Some w /\ isEmpty w = false /\ wordIdx w = N.of_nat i;
  tb_once : forall a a' w w', cBins c !! a = Some w -> cBins c !! a' = Some w' -> isEmpty w = false ->
     isEmpty w' = false -> wordIdx w = wordIdx w' -> a = a' }.

Lemma table_ok enc p lim c0 R c :
  legalParams p -> pStashSize p = 0%nat -> init p (constructed lim) = Done c0 ->
  (length R <= pN p)%nat -> N.of_nat (pN p) < 2 ^ 56 ->
  insertItems enc c0 R 0 = Done c -> Table enc (pNumBins p) R c.
Proof.
  intros Lp Hst Hi H1 H2 E. destruct (insertItems_batches enc c0 R 0) as (bs & Eb & Ec).
  rewrite Eb in E.
  pose proof (imap_items_legal p (fun x => N.lxor (enc x) x) R 0 ltac:(lia) H2) as L.
  assert (legalItems p (concat bs)) as L' by (rewrite Ec; exact L). clear L. rename L' into L.
  pose proof (insertBatches_legal p lim c0 bs Lp Hi L) as B. rewrite E in B.
  destruct B as (set & P & I & S & Hp).
  assert (forall i h, (i, h) ∈ concat bs <-> exists x, R !! N.to_nat i = Some x /\ h = N.lxor (enc x) x) as Hin.
  { intros i h. rewrite Ec. rewrite elem_of_lookup_imap. split.
    - intros (k & x & [= -> ->] & Hx). exists x. split; [|done]. rewrite <- Hx. f_equal. lia.
    - intros (x & Hx & ->). exists (N.to_nat i), x. split; [|done]. f_equal. lia. }
  apply (Inv_set _ _ _ _ P) in I. pose proof I as [W Pm ND Hh].
  assert (cStash c = []) as Hs0.
  { destruct Lp as [Lb Lh]. destruct (init_Inv p lim c0 Lb Lh Hi) as (_ & _ & _ & _ & Hs).
    destruct S as (_ & _ & _ & S). apply nil_length_inv. rewrite S. lia. }
  assert (occ (cBins c) ≡ₚ (concat bs).*1) as Po.
  { rewrite <- Pm. unfold stored. rewrite Hs0. cbn. by rewrite !app_nil_r. }
  assert (NoDup (occ (cBins c))) as NDo by (eapply NoDup_perm; [symmetry; exact Po|done]).
  rewrite <- Hp. constructor.
  - apply W.
  - intros a w Ha He. destruct (wf_bins _ W _ _ Ha) as [->|[G Eh]]; [done|].
    destruct (goodWord_facts c w (wf_h3 _ W) G) as (Hne & Hii & Hl & Hj & _).
    assert (wordIdx w ∈ (concat bs).*1) as Hw.
    { rewrite <- Po. eapply elem_of_list_omap. exists w. rewrite He. split; [|done]. by eapply elem_of_list_lookup_2. }
    apply elem_of_list_fmap in Hw as ([i h] & Ei & Hw). cbn in Ei. rewrite Ei in *.
    destruct (Hh _ _ Hw) as [_ Hlook]. apply Hin in Hw as (x & Hx & ->).
    exists x, (wordHash w). split; [done|]. split; [done|].
    assert (pNumHashes (cParams c) <= 3) by (rewrite Hp; apply Lp). split; [lia|].
    unfold getHashOf in Eh. rewrite (proj2 (readN_Some _ _ _) Hlook) in Eh.
    unfold getHash in Eh. destruct (_ || _); [done|]. injection Eh as Eh. exact Eh.
  - intros i x Hx. assert (N.of_nat i ∈ occ (cBins c)) as X.
    { rewrite Po. apply elem_of_list_fmap. exists (N.of_nat i, N.lxor (enc x) x). split; [done|].
      apply Hin. exists x. rewrite Nat2N.id. done. }
    apply elem_of_list_omap in X as (w & Hw & Ew). destruct (isEmpty w) eqn:He; [done|]. injection Ew as Ew.
    apply elem_of_list_lookup in Hw as [a Ha]. exists a, w. done.
  - intros a a' w w' Ha Ha' He He' Ew. eapply (omap_nodup_lookup (fun w => if isEmpty w then None else Some (wordIdx w)) _ a a' w w' (wordIdx w)); [exact NDo|done|done| |].
    + by rewrite He.
    + by rewrite He', Ew.
Qed.

(** ** The receiver's maps *)

Lemma minColliding_ok b h nb j : 0 < nb -> j < 3 -> cand nb h j = b ->
  exists k, minCollidingHashIdx b h 3 nb = Some k /\ k < 3 /\ cand nb h k = b /\
    forall k', k' < k -> cand nb h k' ≠ b.
Proof.
  intros H0 Hj E. unfold minCollidingHashIdx. cbn [minCollidingFrom].
  change (0 + 1) with 1. change (1 + 1) with 2. rewrite !getHash_cand by lia.
  destruct (N.eqb_spec (cand nb h 0) b) as [E0|E0].
  { exists 0. split; [done|]. split; [lia|]. split; [done|]. lia. }
  destruct (N.eqb_spec (cand nb h 1) b) as [E1|E1].
  { exists 1. split; [done|]. split; [lia|]. split; [done|]. intros k' ?. by replace k' with 0 by lia. }
  destruct (N.eqb_spec (cand nb h 2) b) as [E2|E2].
  { exists 2. split; [done|]. split; [lia|]. split; [done|]. intros k' ?.
    assert (k' = 0 \/ k' = 1) as [-> | ->] by lia; done. }
  exfalso. assert (j = 0 \/ j = 1 \/ j = 2) as [-> |[-> | ->]] by lia; done.
Qed.

Lemma mapFind_app k m1 m2 : mapFind k (m1 ++ m2) = match mapFind k m1 with Some v => Some v | None => mapFind k m2 end.
Proof. induction m1 as [|[k' v] m1 IH]; [done|]. cbn. destruct (k =? k'); done. Qed.
Lemma mapFind_emplace k k' v m : mapFind k (mapEmplace k' v m) =
  match mapFind k m with Some u => Some u | None => if k =? k' then Some v else None end.
Proof.
  unfold mapEmplace. destruct (mapFind k' m) eqn:E.
  - destruct (mapFind k m) eqn:E'; [done|]. destruct (N.eqb_spec k k') as [->|]; [congruence|done].
  - rewrite mapFind_app. done.
Qed.

Section recv.
Context (F : N -> N -> N) (enc : N -> N) (ms nb : N) (R : list N) (c : Cuckoo).
Context (Hnb : 0 < nb).
Context (T : Table enc nb R c).

Notation hash x := (N.lxor (enc x) x).

(** Bin [a] holds item number [i], which is [x]; [k] is its smallest hash function for this bin. *)
Definition holds (a : nat) (i : N) (x : N) (k : N) : Prop :=
  exists w, cBins c !! a = Some w /\ isEmpty w = false /\ wordIdx w = i /\ R !! N.to_nat i = Some x /\ k < 3 /\
    cand nb (hash x) k = N.of_nat a /\ (forall k', k' < k -> cand nb (hash x) k' ≠ N.of_nat a).

Definition maskOf (a : nat) (x : N) : N := F (N.of_nat a) x mod 256 ^ ms.

Lemma holds_fun a i x k i' x' k' : holds a i x k -> holds a i' x' k' -> i = i' /\ x = x' /\ k = k'.
Proof.
  intros (w & Hw & _ & Hi & Hx & _ & Hk & Hm) (w' & Hw' & _ & Hi' & Hx' & _ & Hk' & Hm').
  assert (w = w') as <- by congruence. assert (i = i') as <- by congruence. assert (x = x') as <- by congruence.
  split; [done|]. split; [done|].
  destruct (N.lt_trichotomy k k') as [L|[L|L]]; [|done|].
  - by destruct (Hm' k L).
  - by destruct (Hm k' L).
Qed.
Lemma holds_once a a' i x k x' k' : holds a i x k -> holds a' i x' k' -> a = a' /\ k = k'.
Proof.
  intros H H'. assert (a = a') as <-.
  { destruct H as (w & Hw & He & Hi & _), H' as (w' & Hw' & He' & Hi' & _). eapply tb_once; [exact T|..]; eauto. congruence. }
  split; [done|]. by destruct (holds_fun a i x k i x' k' H H') as (_ & _ & ?).
Qed.

Record MInv (done : nat) (maps : list maskMap) : Prop := {
  mi_len : length maps = 3%nat;
  mi_sound : forall k m key e i, maps !! k = Some m -> mapFind key m = Some (e, i) ->
    exists a x, (a < done)%nat /\ holds a i x (N.of_nat k) /\ e = maskOf a x /\ key = e mod two64;
  mi_complete : forall k m a i x, maps !! k = Some m -> (a < done)%nat -> holds a i x (N.of_nat k) ->
    exists v, mapFind (maskOf a x mod two64) m = Some v }.

Lemma binMask_ok a w maps : cBins c !! a = Some w -> MInv a maps ->
  exists maps', binMask F ms c R (N.of_nat a) w maps = Some maps' /\ MInv (S a) maps'.
Proof.
  intros Hw I. unfold binMask. destruct (isEmpty w) eqn:He.
  { exists maps. split; [done|]. constructor; [apply I| |].
    - intros k m key e i Hm Hf. destruct (mi_sound _ _ I _ _ _ _ _ Hm Hf) as (a' & x & ? & ?). exists a', x.
      split; [lia|done].
    - intros k m a' i x Hm Ha Hh. destruct (decide (a' = a)) as [->|].
      + destruct Hh as (w' & Hw' & He' & _). congruence.
      + eapply mi_complete; eauto. lia. }
  destruct (tb_word _ _ _ _ T _ _ Hw He) as (x & j & Hx & Hhx & Hj & Hc).
  rewrite (proj2 (readN_Some _ _ _) Hhx), (proj2 (readN_Some _ _ _) Hx), (tb_len _ _ _ _ T).
  destruct (minColliding_ok (N.of_nat a) (hash x) nb j Hnb Hj Hc) as (k & -> & Hk & Hck & Hmin).
  cbv zeta. fold (maskOf a x).
  destruct (lookup_lt_is_Some_2 maps (N.to_nat k)) as [m Hm]; [rewrite (mi_len _ _ I); lia|].
  rewrite (proj2 (readN_Some _ _ _) Hm).
  assert (holds a (wordIdx w) x k) as Hh by (exists w; done).
  eexists. split; [reflexivity|]. constructor.
  - rewrite insert_length. apply I.
  - intros k1 m1 key e i Hm1 Hf. destruct (decide (k1 = N.to_nat k)) as [->|Hne].
    + rewrite list_lookup_insert in Hm1 by (eapply lookup_lt_Some; eauto). injection Hm1 as <-.
      rewrite mapFind_emplace in Hf. destruct (mapFind key m) as [u|] eqn:Ef.
      * injection Hf as ->. destruct (mi_sound _ _ I _ _ _ _ _ Hm Ef) as (a' & x' & ? & ?). exists a', x'. split; [lia|done].
      * destruct (N.eqb_spec key (maskOf a x mod two64)) as [->|]; [|done]. injection Hf as <- <-.
        exists a, x. rewrite N2Nat.id. split; [lia|]. done.
    + rewrite list_lookup_insert_ne in Hm1 by done.
      destruct (mi_sound _ _ I _ _ _ _ _ Hm1 Hf) as (a' & x' & ? & ?). exists a', x'. split; [lia|done].
  - intros k1 m1 a' i x' Hm1 Ha Hh'. destruct (decide (k1 = N.to_nat k)) as [->|Hne].
    + rewrite list_lookup_insert in Hm1 by (eapply lookup_lt_Some; eauto). injection Hm1 as <-.
      rewrite mapFind_emplace. destruct (mapFind (maskOf a' x' mod two64) m) as [u|] eqn:Ef; [eauto|].
      destruct (decide (a' = a)) as [->|].
      * destruct (holds_fun _ _ _ _ _ _ _ Hh Hh') as (_ & <- & _). rewrite N.eqb_refl. eauto.
      * destruct (mi_complete _ _ I _ _ a' i x' Hm ltac:(lia) Hh') as [v Hv]. congruence.
    + rewrite list_lookup_insert_ne in Hm1 by done. destruct (decide (a' = a)) as [->|].
      * destruct (holds_fun _ _ _ _ _ _ _ Hh Hh') as (_ & _ & ->). by rewrite Nat2N.id in Hne.
      * eapply mi_complete; eauto. lia.
Qed.

Lemma binMasks_ok ws : forall a maps, drop a (cBins c) = ws -> MInv a maps ->
  exists maps', binMasks F ms c R (N.of_nat a) ws maps = Some maps' /\ MInv (a + length ws) maps'.
Proof.
  induction ws as [|w ws IH]; intros a maps Hd I.
  { exists maps. split; [done|]. cbn. by rewrite Nat.add_0_r. }
  assert (cBins c !! a = Some w) as Hw.
  { rewrite <- (Nat.add_0_r a), <- lookup_drop, Hd. done. }
  cbn [binMasks]. destruct (binMask_ok a w maps Hw I) as (m1 & -> & I1).
  destruct (IH (S a) m1) as (m2 & E2 & I2); [|done|].
  - rewrite <- (drop_drop (cBins c) 1 a) || idtac. replace (S a) with (a + 1)%nat by lia. rewrite <- drop_drop, Hd. done.
  - exists m2. replace (N.of_nat a + 1) with (N.of_nat (S a)) by lia. split; [done|].
    cbn [length]. by replace (a + S (length ws))%nat with (S a + length ws)%nat by lia.
Qed.

Lemma MInv_init : MInv 0 [[]; []; []].
Proof.
  constructor; [done| |].
  - intros k m key e i Hm Hf. destruct k as [|[|[|k]]]; cbn in Hm; try done; injection Hm as <-; done.
  - lia.
Qed.

Lemma maps_ok : exists maps, binMasks F ms c R 0 (cBins c) [[]; []; []] = Some maps /\ MInv (length (cBins c)) maps.
Proof. destruct (binMasks_ok (cBins c) 0 [[]; []; []] (drop_0 _) MInv_init) as (m & E & I). by exists m. Qed.

(** ** Matching *)

Lemma elem_matchItem maps : forall masks i, i ∈ matchItem ms maps masks <->
  exists k m e, maps !! k = Some m /\ masks !! k = Some e /\ mapFind (e mod 256 ^ (N.min ms 8)) m = Some (e, i).
Proof.
  induction maps as [|m maps IH]; intros masks i.
  { cbn. split; [intros H; by apply elem_of_nil in H|]. intros (k & m & e & Hm & _). done. }
  destruct masks as [|e masks].
  { cbn. split; [intros H; by apply elem_of_nil in H|]. intros (k & m' & e & _ & Hm & _). done. }
  cbn [matchItem].
  assert (i ∈ (match mapFind (e mod 256 ^ N.min ms 8) m with
               | Some (e', idx) => (if e' =? e then [idx] else []) ++ matchItem ms maps masks
               | None => matchItem ms maps masks end) <->
          mapFind (e mod 256 ^ N.min ms 8) m = Some (e, i) \/ i ∈ matchItem ms maps masks) as ->.
  { destruct (mapFind _ m) as [[e' idx]|].
    - rewrite elem_of_app. destruct (N.eqb_spec e' e) as [->|Hne].
      + rewrite elem_of_list_singleton. split; intros [H|H]; try (by right).
        * left. by subst.
        * left. by injection H.
      + split; intros [H|H]; try (by right); [by apply elem_of_nil in H|congruence].
    - split; [by right|]. by intros [H|H]. }
  rewrite IH. split.
  - intros [H|(k & m' & e' & ? & ? & ?)]; [exists 0%nat, m, e; done|]. exists (S k), m', e'. done.
  - intros ([|k] & m' & e' & Hm & He & Hf).
    + left. cbn in Hm, He. congruence.
    + right. exists k, m', e'. done.
Qed.

Lemma NoDup_matchItem maps : forall masks,
  (forall k k' m m' e e' i, maps !! k = Some m -> maps !! k' = Some m' ->
     masks !! k = Some e -> masks !! k' = Some e' ->
     mapFind (e mod 256 ^ (N.min ms 8)) m = Some (e, i) -> mapFind (e' mod 256 ^ (N.min ms 8)) m' = Some (e', i) -> k = k') ->
  NoDup (matchItem ms maps masks).
Proof.
  induction maps as [|m maps IH]; intros masks H; [constructor|].
  destruct masks as [|e masks]; [constructor|]. cbn [matchItem].
  assert (NoDup (matchItem ms maps masks)) as ND.
  { apply IH. intros k k' m1 m1' e1 e1' i Hm Hm' He He' Hf Hf'.
    assert (S k = S k') as X by (apply (H (S k) (S k') m1 m1' e1 e1' i); done). by injection X. }
  destruct (mapFind (e mod 256 ^ N.min ms 8) m) as [[e' idx]|] eqn:Ef; [|done].
  destruct (N.eqb_spec e' e) as [->|]; [|done]. cbn [app]. apply NoDup_cons. split; [|done].
  intros Hin. apply elem_matchItem in Hin as (k & m1 & e1 & Hm & He & Hf).
  specialize (H 0%nat (S k) m m1 e e1 idx eq_refl Hm eq_refl He Ef Hf). done.
Qed.

Lemma key_ok v : (v mod 256 ^ ms) mod 256 ^ (N.min ms 8) = (v mod 256 ^ ms) mod two64.
Proof.
  change two64 with (256 ^ 8). destruct (N.le_gt_cases ms 8) as [L|L].
  - rewrite N.min_l by done. pose proof (N.mod_lt v (256 ^ ms) ltac:(apply N.pow_nonzero; lia)) as B.
    pose proof (N.pow_le_mono_r 256 ms 8 ltac:(lia) L). rewrite !(N.mod_small (v mod 256 ^ ms)); lia.
  - rewrite N.min_r by lia. done.
Qed.

End recv.

Lemma matchItems_app ms maps k1 : forall l1 l2 k2, length l1 = (3 * k1)%nat ->
  matchItems ms maps (l1 ++ l2) (k1 + k2) = matchItems ms maps l1 k1 ++ matchItems ms maps l2 k2.
Proof.
  induction k1 as [|k1 IH]; intros l1 l2 k2 Hl.
  { destruct l1; [done|cbn in Hl; lia]. }
  cbn [matchItems Nat.add]. rewrite take_app_le, drop_app_le by lia.
  rewrite IH by (rewrite drop_length; lia). by rewrite app_assoc.
Qed.

Lemma matchItems_concat ms maps (ls : list (list N)) : Forall (fun l => length l = 3%nat) ls ->
  matchItems ms maps (concat ls) (length ls) = concat (map (matchItem ms maps) ls).
Proof.
  induction 1 as [|l ls Hl F IH]; [done|]. cbn [concat length map].
  change (S (length ls)) with (1 + length ls)%nat. rewrite matchItems_app by lia. rewrite IH. f_equal.
  cbn [matchItems]. rewrite app_nil_r. by rewrite take_ge by lia.
Qed.

Local Opaque stepSize.
Lemma recvRegions_ok F enc junk ms nb xs pm maps (Hpm : pm ≡ₚ seq 0 (length xs)) regions : forall r msgs out,
  (regions = numRegions xs - r)%nat -> (r <= numRegions xs)%nat ->
  recvRegions ms maps (length xs) r regions
    (map (regionMsg F enc junk ms nb xs pm) (seq r regions) ++ msgs) out =
  Done (out ++ matchItems ms maps (drop (r * stepSize * 3) (allMasks F enc junk ms nb xs pm)) (length xs - r * stepSize), msgs).
Proof.
  pose proof (allMasks_length F enc junk ms nb xs pm Hpm) as L.
  induction regions as [|regions IH]; intros r msgs out Hr Hle.
  - cbn [recvRegions seq map app].
    assert (~ (r * stepSize < length xs)%nat) as X by (rewrite regions_bound; lia).
    replace (length xs - r * stepSize)%nat with 0%nat by lia. cbn [matchItems]. by rewrite app_nil_r.
  - assert (r * stepSize < length xs)%nat as X by (rewrite regions_bound; lia).
    cbn [recvRegions seq map app]. cbv zeta.
    assert (length (regionMsg F enc junk ms nb xs pm r) = (Nat.min (length xs - r * stepSize) stepSize * 3)%nat) as Lm.
    { unfold regionMsg. rewrite take_length, drop_length, L. lia. }
    rewrite Lm, Nat.eqb_refl. rewrite IH by lia. f_equal. f_equal. rewrite <- app_assoc. f_equal.
    set (cur := Nat.min (length xs - r * stepSize) stepSize) in *.
    replace (length xs - r * stepSize)%nat with (cur + (length xs - S r * stepSize))%nat by lia.
    rewrite <- (take_drop (cur * 3) (drop (r * stepSize * 3) (allMasks F enc junk ms nb xs pm))) at 1.
    rewrite matchItems_app by (rewrite take_length, drop_length, L; lia).
    unfold regionMsg. rewrite Nat.min_comm. fold cur. f_equal.
    rewrite drop_drop. destruct (Nat.le_gt_cases stepSize (length xs - r * stepSize)) as [L1|L1].
    + f_equal. f_equal. lia.
    + replace (length xs - S r * stepSize)%nat with 0%nat by lia. done.
Qed.
