(** Proofs about what the receiver's messages in DKT reveal. *)
From Verif Require Import Base Ecdh_Model Dkt_Model Dkt_Spec Dkt_Proofs DktForge_Spec DktHide_Spec.

Section dkt.
Context (D : dkt) (HL : dktLaws D).

Lemma opened_is v g A k d e : undoes D e v -> A = pmul D g d -> opened D v g A (sadd D d (smul D k e)) = pmul D g k.
Proof using HL.
  intros Hu ->. unfold opened. rewrite (pmulDr D HL), (paddC D HL), (paddK D HL), <- (pmulA D HL). apply Hu.
Qed.
Lemma sum_is xs x xs' : xs = x :: xs' -> isSum D xs (sumPts D (map (ptOf D) xs)).
Proof using. intros ->. exists x, xs'. done. Qed.

Definition chal (r : recvRnd D) (items : list (list N)) : sc D := challenge D (pmul D (gen D) (rD r 0%nat)) (entries tripleB (m1Items (recvFirst D r items))).
(** The sum of the points of the first thread. *)
Lemma sum_first r x xs items v : undoes D (chal r ((x :: xs) :: items)) v ->
  let m1 := recvFirst D r ((x :: xs) :: items) in let m2 := recvSecond D r m1 in
  isSum D (x :: xs) (psub D (m1X m1) (opened D v (gen D) (m1A m1) (m2Phi m2))).
Proof using HL.
  intros Hu m1 m2. unfold m2, recvSecond. cbn [m2Phi]. rewrite (opened_is _ _ _ _ _ _ Hu); [|done]. unfold m1, recvFirst. cbn [m1X head default].
  rewrite (paddK D HL). by eapply sum_is.
Qed.
Lemma entry_item r items t k xs : items !! t = Some xs -> (k < length xs)%nat -> entryAt (m1Items (recvFirst D r items)) t k = Some (recvTriple D r t (map (ptOf D) xs) k).
Proof using.
  intros Ht Hk. unfold entryAt, recvFirst. cbn [m1Items]. rewrite list_lookup_imap, Ht. cbn. unfold recvTriples. rewrite list_lookup_fmap, lookup_seq_lt by done. done.
Qed.
Lemma entry_phi r items t k xs : items !! t = Some xs -> (k < length xs)%nat ->
  entryAt (m2Phis (recvSecond D r (recvFirst D r items))) t k = Some (sadd D (rDs r t k) (smul D (rRcs r t k) (chal r items))).
Proof using.
  intros Ht Hk. unfold entryAt, recvSecond. cbn [m2Phis]. rewrite list_lookup_imap.
  assert (m1Items (recvFirst D r items) !! t = Some (recvTriples D r t xs)) as -> by (unfold recvFirst; cbn [m1Items]; by rewrite list_lookup_imap, Ht).
  cbn. rewrite list_lookup_fmap. unfold recvTriples. rewrite map_length, seq_length, lookup_seq_lt by done. done.
Qed.
(** The sum of the points of any thread, from any of its items. *)
Lemma sum_thread r items v t k x xs : undoes D (chal r items) v -> items !! t = Some (x :: xs) -> (k < length (x :: xs))%nat ->
  let m1 := recvFirst D r items in let m2 := recvSecond D r m1 in
  exists it phi, entryAt (m1Items m1) t k = Some it /\ entryAt (m2Phis m2) t k = Some phi /\
    isSum D (x :: xs) (psub D (padd D (tripleM it) (tripleN it)) (opened D v (padd D (gg D) (gggR D)) (tripleB it) phi)).
Proof using HL.
  intros Hu Ht Hk m1 m2. eexists _, _. split; [by apply (entry_item r items t k (x :: xs))|]. split; [by apply (entry_phi r items t k (x :: xs))|].
  rewrite (opened_is _ _ _ _ _ _ Hu); [|done]. unfold recvTriple, tripleM, tripleN. cbn [fst snd].
  set (back := default (ptNew D) (last (map (ptOf D) (x :: xs)))). set (S := sumPts D _).
  assert (padd D (padd D back (pmul D (gg D) (rRcs r t k))) (padd D (psub D S back) (pmul D (gggR D) (rRcs r t k))) = padd D S (pmul D (padd D (gg D) (gggR D)) (rRcs r t k))) as ->.
  { rewrite (pmulDl D HL). set (a := pmul D (gg D) _). set (b := pmul D (gggR D) _).
    rewrite (paddC D HL back a), <- (paddA D HL a back), (paddA D HL back), (paddC D HL back), (psubK D HL), !(paddA D HL), (paddC D HL a S). done. }
  rewrite (paddK D HL). by eapply sum_is.
Qed.
(** The point of the last item of any thread, if [ggg] is neutral; and the sum of the others. *)
Lemma last_item r items v t k x xs : neutral D (gggR D) -> undoes D (chal r items) v -> items !! t = Some xs -> last xs = Some x -> (k < length xs)%nat ->
  let m1 := recvFirst D r items in let m2 := recvSecond D r m1 in
  exists it phi, entryAt (m1Items m1) t k = Some it /\ entryAt (m2Phis m2) t k = Some phi /\
    psub D (tripleM it) (opened D v (gg D) (tripleB it) phi) = ptOf D x.
Proof using HL.
  intros Hn Hu Ht Hx Hk m1 m2. eexists _, _. split; [by apply (entry_item r items t k xs)|]. split; [by apply (entry_phi r items t k xs)|].
  unfold recvTriple, tripleM, tripleB. cbn [fst snd]. rewrite (opened_is _ _ _ _ _ _ Hu).
  - rewrite (paddK D HL). rewrite fmap_last, Hx. done.
  - rewrite (pmulDl D HL). apply Hn.
Qed.
Lemma other_items r items t k x y xs : neutral D (gggR D) -> items !! t = Some (x :: xs ++ [y]) -> (k < length (x :: xs ++ [y]))%nat ->
  exists it, entryAt (m1Items (recvFirst D r items)) t k = Some it /\ isSum D (x :: xs) (tripleN it).
Proof using HL.
  intros Hn Ht Hk. eexists. split; [by apply (entry_item r items t k (x :: xs ++ [y]))|]. unfold recvTriple, tripleN. cbn [fst snd]. rewrite Hn.
  exists x, xs. split; [done|]. rewrite app_comm_cons, map_app. cbn [map]. rewrite last_snoc. cbn [default]. unfold sumPts. cbn [map app]. rewrite foldl_app. cbn [foldl].
  apply (paddK D HL).
Qed.
(** Two sets with the same messages. *)
Lemma same_sum r r' xs xs' items items' v : xs <> [] -> xs' <> [] -> undoes D (chal r (xs :: items)) v ->
  recvFirst D r (xs :: items) = recvFirst D r' (xs' :: items') -> recvSecond D r (recvFirst D r (xs :: items)) = recvSecond D r' (recvFirst D r' (xs' :: items')) ->
  exists p, isSum D xs p /\ isSum D xs' p.
Proof using HL.
  intros Hx Hx' Hu E1 E2. destruct xs as [|x xs]; [done|]. destruct xs' as [|x' xs']; [done|].
  assert (chal r ((x :: xs) :: items) = chal r' ((x' :: xs') :: items')) as Ec.
  { unfold chal. assert (m1A (recvFirst D r ((x :: xs) :: items)) = m1A (recvFirst D r' ((x' :: xs') :: items'))) as EA by by rewrite E1. cbn [m1A recvFirst] in EA. by rewrite EA, E1. }
  pose proof (sum_first r x xs items v Hu) as H1. rewrite Ec in Hu. pose proof (sum_first r' x' xs' items' v Hu) as H2. cbv zeta in H1, H2. rewrite E2, E1 in H1. eexists. split; [exact H1|exact H2].
Qed.

(** Without the [N] the first message can come from any other set of the same shape. *)
Definition backPt (xs : list N) : pt D := default (ptNew D) (last (map (ptOf D) xs)).
Lemma entriesM r items : entries tripleM (m1Items (recvFirst D r items)) = imap (fun t xs => map (fun k => padd D (backPt xs) (pmul D (gg D) (rRcs r t k))) (seq 0 (length xs))) items.
Proof using.
  unfold entries, recvFirst. cbn [m1Items]. apply list_eq. intros t. rewrite list_lookup_fmap, !list_lookup_imap. destruct (items !! t) as [xs|]; [|done]. cbn. f_equal.
  unfold recvTriples. rewrite map_map. done.
Qed.
Lemma entriesB r items : entries tripleB (m1Items (recvFirst D r items)) = imap (fun t n => map (fun k => pmul D (padd D (gg D) (gggR D)) (rDs r t k)) (seq 0 n)) (map length items).
Proof using.
  unfold entries, recvFirst. cbn [m1Items]. apply list_eq. intros t. rewrite list_lookup_fmap, !list_lookup_imap, list_lookup_fmap. destruct (items !! t) as [xs|]; [|done]. cbn. f_equal.
  unfold recvTriples. rewrite map_map. done.
Qed.
Lemma padd_move a b c d : padd D a b = padd D c d <-> b = padd D (psub D c a) d.
Proof using HL.
  split.
  - intros E. apply (f_equal (fun p => psub D p a)) in E. rewrite (paddC D HL a b), (paddK D HL) in E. rewrite E.
    rewrite <- (psubK D HL c a) at 1. rewrite (paddC D HL _ a), <- (paddA D HL), (paddC D HL a), (paddK D HL). done.
  - intros ->. rewrite (paddA D HL), (paddC D HL a), (psubK D HL). done.
Qed.
Lemma first_hides logG logGG r items items' : generates D (gen D) logG -> generates D (gg D) logGG -> map length items = map length items' ->
  exists Rc' Rcs', forall r', (forall t, rD r' t = rD r t) -> (forall t k, rDs r' t k = rDs r t k) ->
    (m1X (recvFirst D r' items') = m1X (recvFirst D r items) /\ m1A (recvFirst D r' items') = m1A (recvFirst D r items) /\
      entries tripleM (m1Items (recvFirst D r' items')) = entries tripleM (m1Items (recvFirst D r items)) /\
      entries tripleB (m1Items (recvFirst D r' items')) = entries tripleB (m1Items (recvFirst D r items))) <->
    rRc r' = Rc' /\ forall t k xs, items !! t = Some xs -> (k < length xs)%nat -> rRcs r' t k = Rcs' t k.
Proof using HL.
  intros HG HGG Hlen. set (S := sumPts D (map (ptOf D) (default [] (head items)))). set (S' := sumPts D (map (ptOf D) (default [] (head items')))).
  exists (logG (padd D (psub D S S') (pmul D (gen D) (rRc r)))).
  exists (fun t k => logGG (padd D (psub D (backPt (default [] (items !! t))) (backPt (default [] (items' !! t)))) (pmul D (gg D) (rRcs r t k)))).
  intros r' HD HDs. rewrite !entriesM, !entriesB, Hlen.
  assert (m1X (recvFirst D r' items') = m1X (recvFirst D r items) <-> rRc r' = logG (padd D (psub D S S') (pmul D (gen D) (rRc r)))) as EX.
  { unfold recvFirst. cbn [m1X]. fold S S'. rewrite padd_move. apply HG. }
  assert (forall t k xs, items !! t = Some xs -> exists xs', items' !! t = Some xs' /\ length xs' = length xs /\
    (padd D (backPt xs') (pmul D (gg D) (rRcs r' t k)) = padd D (backPt xs) (pmul D (gg D) (rRcs r t k)) <->
     rRcs r' t k = logGG (padd D (psub D (backPt xs) (backPt xs')) (pmul D (gg D) (rRcs r t k))))) as EM.
  { intros t k xs Ht. assert (map length items !! t = map length items' !! t) as E by by rewrite Hlen. rewrite !list_lookup_fmap, Ht in E. destruct (items' !! t) as [xs'|]; [|done].
    cbn in E. injection E as E. exists xs'. split; [done|]. split; [done|]. rewrite padd_move. apply HGG. }
  split.
  - intros (E1 & _ & E3 & _). split; [by apply EX|]. intros t k xs Ht Hk. destruct (EM t k xs Ht) as (xs' & Ht' & Hl & Hiff). rewrite Ht, Ht'. cbn [default]. apply Hiff.
    apply (f_equal (fun l => l !! t)) in E3. rewrite !list_lookup_imap, Ht, Ht' in E3. cbn in E3. injection E3 as E3. apply (f_equal (fun l => l !! k)) in E3.
    rewrite !list_lookup_fmap, !lookup_seq_lt in E3 by lia. cbn in E3. by injection E3.
  - intros [E1 E2]. split; [by apply EX|]. split; [unfold recvFirst; cbn [m1A]; by rewrite HD|]. split.
    + apply list_eq. intros t. rewrite !list_lookup_imap. destruct (items !! t) as [xs|] eqn:Ht.
      * destruct (EM t 0%nat xs Ht) as (xs' & Ht' & Hl & _). rewrite Ht'. cbn. f_equal. rewrite Hl. apply map_ext_in. intros k Hk%in_seq.
        destruct (EM t k xs Ht) as (xs'' & Ht'' & _ & Hiff). rewrite Ht' in Ht''. injection Ht'' as <-. apply Hiff. rewrite (E2 t k xs Ht) by lia. by rewrite Ht, Ht'.
      * destruct (items' !! t) as [xs'|] eqn:Ht'; [|done]. assert (map length items !! t = map length items' !! t) as E by by rewrite Hlen. by rewrite !list_lookup_fmap, Ht, Ht' in E.
    + apply imap_ext. intros t n _. apply map_ext. intros k. by rewrite HDs.
Qed.
End dkt.
