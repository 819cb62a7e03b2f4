(** Proofs about receivers that face a sender who sends what it likes. *)
From Verif Require Import Base Partition_Model Rr17_Model Rr17a_Model Foreign_Model Foreign_Spec.
From Verif Require Ecdh_Model Ecdh_Proofs Dcw_Model Dcw_Spec Dcw_Proofs Rr16_Model Rr16_Proofs Kkrt_Model Dkt_Model Dkt_Proofs Rr17_Proofs Rr17a_Spec Rr17a_Proofs Drrn_Model.

(** ** Lists *)

Lemma omap_length_le {A B} (f : A -> option B) l : (length (omap f l) <= length l)%nat.
Proof. induction l as [|x l IH]; cbn; [lia|]. destruct (f x); cbn; lia. Qed.

Lemma concat_omap_length {A B C} (f : C -> A -> option B) (g : C -> list A) ts :
  (length (concat (map (fun t => omap (f t) (g t)) ts)) <= length (concat (map g ts)))%nat.
Proof. induction ts as [|t ts IH]; cbn; [lia|]. rewrite !app_length. pose proof (omap_length_le (f t) (g t)). lia. Qed.

Lemma elem_concat_omap {A B C} (f : C -> A -> option B) (g : C -> list A) ts p : p ∈ concat (map (fun t => omap (f t) (g t)) ts) ->
  exists t m, t ∈ ts /\ m ∈ g t /\ m ∈ concat (map g ts) /\ f t m = Some p.
Proof.
  intros H. apply elem_of_concat in H as (l & Hl & H). apply elem_of_list_fmap in H as (t & -> & Ht). apply elem_of_list_omap in Hl as (m & Hm & E).
  exists t, m. split; [done|]. split; [done|]. split; [|done]. apply elem_of_concat. exists (g t). split; [done|]. by apply (elem_of_list_fmap_1 g).
Qed.

(** ** KKRT *)

Section Kkrt.
Import Kkrt_Model CuckooIndex_Model.
Context (F : N -> N -> N) (ms : N) (R : list N).

Definition mapOk (m : maskMap) : Prop := forall k e i, (k, (e, i)) ∈ m -> kkrtOwn F ms R (N.to_nat i) e /\ i < N.of_nat (length R).

Lemma mapFind_elem k m v : mapFind k m = Some v -> exists k', (k', v) ∈ m.
Proof.
  induction m as [|[k' v'] m IH]; cbn; [done|]. destruct (k =? k'); [intros [= ->]; exists k'; left|]. intros H. destruct (IH H) as [k2 ?]. exists k2. by right.
Qed.

Lemma readN_elem {A} (l : list A) i x : readN l i = Some x -> l !! N.to_nat i = Some x /\ i < N.of_nat (length l).
Proof. unfold readN. destruct (N.ltb_spec i (N.of_nat (length l))); done. Qed.

Lemma binMasks_ok c ws : forall b maps maps', binMasks F ms c R b ws maps = Some maps' -> Forall mapOk maps -> Forall mapOk maps' /\ length maps' = length maps.
Proof.
  induction ws as [|w ws IH]; intros b maps maps' E H; cbn [binMasks] in E; [by injection E as <-|].
  destruct (binMask F ms c R b w maps) as [maps1|] eqn:E1; [|done]. assert (Forall mapOk maps1 /\ length maps1 = length maps) as [H1 L1].
  { unfold binMask in E1. destruct (isEmpty w); [by injection E1 as <-|]. destruct (readN (cHashes c) (wordIdx w)); [|done].
    destruct (minCollidingHashIdx _ _ _ _) as [h|]; [|done]. destruct (readN R (wordIdx w)) as [x|] eqn:Ex; [|done].
    destruct (readN maps h) as [m|] eqn:Em; [|done]. injection E1 as <-. split; [|by rewrite insert_length].
    apply Forall_insert; [done|]. apply readN_elem in Em as [Em _]. pose proof (Forall_lookup_1 _ _ _ _ H Em) as Hm. cbn beta in Hm.
    unfold mapEmplace. destruct (mapFind _ m); [done|]. intros k e i [Hi|Hi%elem_of_list_singleton]%elem_of_app; [by eapply Hm|].
    injection Hi as -> -> ->. apply readN_elem in Ex as [Ex Lx]. split; [|done]. exists x, b. done. }
  destruct (IH _ _ _ E H1) as [A B]. split; [done|]. by rewrite B.
Qed.

Lemma matchItem_ok maps : Forall mapOk maps -> forall masks, (length (matchItem ms maps masks) <= length masks)%nat /\
  forall p, p ∈ matchItem ms maps masks -> p < N.of_nat (length R) /\ exists m, m ∈ masks /\ kkrtOwn F ms R (N.to_nat p) m.
Proof.
  induction 1 as [|m maps Hm H IH]; intros [|e masks]; cbn [matchItem]; try (split; [cbn; lia|]; intros p Hp; by apply elem_of_nil in Hp).
  destruct (IH masks) as [L P].
  assert (forall p, p ∈ matchItem ms maps masks -> p < N.of_nat (length R) /\ exists m0, m0 ∈ e :: masks /\ kkrtOwn F ms R (N.to_nat p) m0) as P'.
  { intros p Hp. destruct (P p Hp) as (A & m0 & B & C). split; [done|]. exists m0. split; [by right|done]. }
  destruct (mapFind _ m) as [[e' idx]|] eqn:E; [|split; [cbn; lia|done]].
  destruct (e' =? e) eqn:Ee; cbn [app]; [|split; [cbn; lia|done]]. apply N.eqb_eq in Ee as ->. split; [cbn; lia|].
  intros p [->|Hp]%elem_of_cons; [|by apply P']. apply mapFind_elem in E as [k E]. destruct (Hm _ _ _ E) as [A B]. split; [done|]. exists e. split; [left|done].
Qed.

Lemma matchItems_ok maps : Forall mapOk maps -> forall k masks, (length (matchItems ms maps masks k) <= length masks)%nat /\
  forall p, p ∈ matchItems ms maps masks k -> p < N.of_nat (length R) /\ exists m, m ∈ masks /\ kkrtOwn F ms R (N.to_nat p) m.
Proof.
  intros H. induction k as [|k IH]; intros masks; cbn [matchItems]; [split; [cbn; lia|]; intros p Hp; by apply elem_of_nil in Hp|].
  destruct (matchItem_ok maps H (take 3 masks)) as [L1 P1]. destruct (IH (drop 3 masks)) as [L2 P2]. split.
  - rewrite app_length. rewrite <- (take_drop 3 masks) at 3. rewrite app_length. lia.
  - intros p [Hp|Hp]%elem_of_app; [destruct (P1 p Hp) as (A & m & B & C)|destruct (P2 p Hp) as (A & m & B & C)]; (split; [done|]); exists m; (split; [|done]).
    + rewrite <- (take_drop 3 masks). apply elem_of_app. by left.
    + rewrite <- (take_drop 3 masks). apply elem_of_app. by right.
Qed.

Lemma recvRegions_ok maps nS : Forall mapOk maps -> forall regions idx msgs out res rest,
  recvRegions ms maps nS idx regions msgs out = Done (res, rest) -> earned (length R) (kkrtOwn F ms R) (concat msgs) out res.
Proof.
  intros H. induction regions as [|regions IH]; intros idx msgs out res rest E; cbn [recvRegions] in E.
  - injection E as <- <-. exists []. rewrite app_nil_r. split; [done|]. split; [cbn; lia|]. intros p Hp. by apply elem_of_nil in Hp.
  - destruct msgs as [|msg msgs]; [done|]. destruct (_ =? _)%nat; [|done]. apply IH in E as (new & -> & L & P).
    set (cur := Nat.min (nS - idx * stepSize) stepSize) in *. destruct (matchItems_ok maps H cur msg) as [L2 P2].
    exists (matchItems ms maps msg cur ++ new). split; [by rewrite app_assoc|]. cbn [concat]. split; [rewrite !app_length; lia|].
    intros p [Hp|Hp]%elem_of_app; [destruct (P2 p Hp) as (A & m & B & C)|destruct (P p Hp) as (A & m & B & C)]; (split; [done|]); exists m; (split; [|done]).
    + apply elem_of_app. by left.
    + apply elem_of_app. by right.
Qed.

Lemma kkrt_earned enc seed nS nR o msgs o' rest : receiverInput F enc seed ms nS nR o R msgs = Done (o', rest) ->
  earned (length R) (kkrtOwn F ms R) (concat msgs) (krIntersection o) (krIntersection o').
Proof.
  unfold receiverInput. destruct (negb _); [done|]. destruct (insertItems _ _ _ _) as [c|c| |]; try done.
  destruct (binMasks F ms c R 0 (cBins c) [[]; []; []]) as [maps|] eqn:E; [|done].
  destruct (recvRegions _ _ _ _ _ _ _) as [[out r]|[out r]| |] eqn:E2; try done. intros [= <- <-]. cbn [krIntersection].
  eapply recvRegions_ok; [|exact E2]. eapply binMasks_ok; [exact E|]. assert (mapOk []) as H0 by (intros k e i Hi; by apply elem_of_nil in Hi).
  apply Forall_cons_2; [done|]. apply Forall_cons_2; [done|]. apply Forall_cons_2; [done|]. apply Forall_nil_2.
Qed.

(** No contents of messages of the right sizes stop the receiver. *)
Lemma recvRegions_total maps nS regions : forall idx msgs out,
  (forall i, (i < regions)%nat -> exists msg, msgs !! i = Some msg /\ length msg = (Nat.min (nS - (idx + i) * stepSize) stepSize * 3)%nat) ->
  exists res, recvRegions ms maps nS idx regions msgs out = Done (res, drop regions msgs).
Proof.
  induction regions as [|regions IH]; intros idx msgs out H; cbn [recvRegions]; [rewrite drop_0; by eexists|].
  destruct (H 0%nat ltac:(lia)) as (msg & E & L). destruct msgs as [|msg' msgs]; [done|]. injection E as ->. rewrite Nat.add_0_r in L. rewrite L, Nat.eqb_refl.
  cbn [drop]. apply IH. intros i Hi. destruct (H (S i) ltac:(lia)) as (m & E & Lm). exists m. split; [done|]. rewrite Lm. f_equal. f_equal. f_equal. lia.
Qed.
End Kkrt.

(** ** DCW *)

Section Dcw.
Import Dcw_Model Dcw_Spec Dcw_Proofs.

Lemma dcw_earned aes prng o R theirs out : length (drMsgs o) = bfBits (drN o) -> (0 < bfBits (drN o))%nat ->
  dcwReceive aes prng o R theirs = Done out ->
  earned (length R) (dcwOwn (positions aes prng (drSeed o) (bfBits (drN o))) (drMsgs o) R) theirs (drIntersection o) out.
Proof.
  intros Lm Hb E. unfold dcwReceive, recvFirst in E. destruct (negb _) eqn:EN; [done|].
  pose proof (encodeAll_Done aes prng (drSeed o) (drMsgs o) (bfBits (drN o)) R 0 (replicate (bfBits (drN o)) false) [] []) as HD.
  pose proof (encodeAll_spec aes prng (drSeed o) (drMsgs o) (bfBits (drN o)) R (replicate (bfBits (drN o)) false) []) as HS. cbn [length imap rev] in HS.
  destruct (encodeAll _ _ _ _ _ _ _ _ _) as [[[bf mp] masks]|[[bf mp] masks]| |] eqn:EE; try done.
  destruct (length theirs =? drN o)%nat; [|done]. cbv zeta in HS. specialize (HD _ Hb Lm (replicate_length _ _) (NoDup_nil_2) eq_refl).
  specialize (HS Hb Lm (replicate_length _ _) HD (NoDup_nil_2)). cbn [map app] in HS. case_bool_decide as ND; [|by destruct HS]. injection HS as _ -> ->.
  set (encs := map (encOf aes prng (drSeed o) (bfBits (drN o)) (drMsgs o)) R) in *.
  rewrite matchMasks_eq in E by done. injection E as <-. exists (commonPositions encs theirs). split; [done|]. split; [apply omap_length_le|].
  intros p Hp. unfold commonPositions in Hp. apply elem_of_list_omap in Hp as (m & Hm & E2). destruct (list_find (fun x => x = m) encs) as [[i e]|] eqn:Ef; [|done].
  injection E2 as <-. apply list_find_Some in Ef as (Ei & -> & _). pose proof (lookup_lt_Some _ _ _ Ei) as Li. unfold encs in Li. rewrite map_length in Li. split; [lia|].
  exists m. split; [done|]. rewrite Nat2N.id. unfold encs in Ei. rewrite (list_lookup_fmap (encOf aes prng (drSeed o) (bfBits (drN o)) (drMsgs o))) in Ei.
  destruct (R !! i) as [x|] eqn:Ex; [|done]. injection Ei as <-. exists x. done.
Qed.
End Dcw.

(** ** RR16 *)

Section Rr16.
Import Rr16_Model Rr16_Proofs.

Lemma rr16_earned aes ro seed m nh T n total zeros ones msgs R mergeOrd theirs outOrd old out perm mp : (0 < T)%nat -> N.of_nat n * N.of_nat T < 2 ^ 64 ->
  recvFirst aes ro seed m nh T n total zeros ones msgs R mergeOrd = Done (perm, mp) ->
  rr16Receive aes ro seed m nh T n total zeros ones msgs R mergeOrd theirs outOrd old = Done out ->
  earned (length R) (lowOwn (fun x => recvMask msgs perm (filterPos aes ro seed (N.of_nat m) nh x) 0) R)
    (concat (map (fun t => default [] (theirs !! t)) outOrd)) old out.
Proof.
  intros HT Hw E H. unfold rr16Receive in H. rewrite E in H. injection H as <-. unfold recvFirst in E. destruct (negb _); [done|]. destruct (2 ^ 32 <? total); [done|].
  destruct (setBits _ _) as [bf|]; [|done]. destruct (buildPerm bf zeros ones) as [perm'|]; [|done].
  destruct (mapM _ (seq 0 T)) as [es|] eqn:Ees; [|done]. injection E as <- <-.
  unfold recvSecond. eexists. split; [reflexivity|]. split; [apply (concat_omap_length (fun _ => _) (fun t => default [] (theirs !! t)))|].
  intros p Hp. apply (elem_concat_omap (fun _ => _) (fun t => default [] (theirs !! t))) in Hp as (t & y & Ht & Hy & Hy' & Ef).
  destruct (list_find _ (mergeMaps _ _)) as [[j [k i]]|] eqn:El; [|done]. injection Ef as <-.
  apply list_find_Some in El as (El & Hk & _). cbn in Hk. subst k. apply elem_of_list_lookup_2 in El. unfold mergeMaps in El.
  apply foldl_maskInsert in El as [El|El]; [by apply elem_of_nil in El|]. apply elem_of_concat in El as (l & Hl & El). apply elem_of_list_fmap in El as (t' & -> & Ht').
  rewrite (list_lookup_fmap localMap) in Hl. destruct (es !! t') as [q|] eqn:Eq; [|by apply elem_of_nil in Hl]. cbn in Hl. unfold localMap in Hl.
  apply foldl_maskInsert in Hl as [Hl|Hl]; [by apply elem_of_nil in Hl|].
  apply mapM_Some in Ees. destruct (Forall2_lookup_r _ _ _ _ _ Ees Eq) as (t2 & Et2 & E2). cbn beta in E2. apply mapM_Some in E2. apply elem_of_list_lookup in Hl as [j2 Hj].
  destruct (Forall2_lookup_r _ _ _ _ _ E2 Hj) as (i2 & Ei2 & E3). cbn beta in E3. destruct (R !! i2) as [x|] eqn:Ex; [|done].
  destruct (recvMask _ _ _ _) as [k|] eqn:Ek; [|done]. injection E3 as E3 <-. split; [apply lookup_lt_Some in Ex; lia|].
  exists y. split; [done|]. rewrite Nat2N.id. exists x, k. split; [done|]. split; [done|]. done.
Qed.
End Rr16.

(** ** RR17a *)

Section Rr17a.
Import Rr17_Proofs Rr17a_Spec Rr17a_Proofs.

Lemma rr17a_earned P rd R chan old : paramsOk P R -> rOrdR rd ≡ₚ seq 0 (pN P) -> (forall t, t ∈ rOut rd -> (t < pT P)%nat) ->
  exists out, rr17aReceive P rd R chan old = Done out /\
    earned (length R) (rr17aOwn (pEncR P) (pEncS P) (nco P) (itemBin P) (places (pCap P) (pNb P) (pT P)) (pCap P) (pMask P) R)
      (concat (map chan (rOut rd))) old out.
Proof.
  intros HR HO HTh. pose proof HR as (Hn & Hnb & Hcap & HT & HM & Hw & HLR & HCR). destruct (mkBins_ok P R _ HR HO) as (bins & EB & OB).
  unfold rr17aReceive. rewrite HLR, Nat.eqb_refl. cbn [negb]. assert ((16 <? pMask P) = false) as -> by (apply N.ltb_ge; done). rewrite EB.
  set (fR := fun t => recvAssign (pCap P) (rDraw rd) bins (placesOf (pCap P) (pNb P) (pT P) t) (seq 0 (pCap P))).
  assert (forall t b base, (t < pT P)%nat -> (t, b, base) ∈ placesOf (pCap P) (pNb P) (pT P) t -> (t, b, base) ∈ places (pCap P) (pNb P) (pT P) /\ (b < pNb P)%nat) as PL.
  { intros t b base Ht Hpl. assert ((t, b, base) ∈ places (pCap P) (pNb P) (pT P)) as Hpl'.
    { unfold places. apply elem_of_concat. eexists. split; [exact Hpl|]. apply elem_of_list_fmap. exists t. split; [done|]. apply elem_of_seq. lia. }
    split; [done|]. assert (b ∈ seq 0 (pNb P)) as Hb; [|apply elem_of_seq in Hb; lia]. rewrite <- (places_bins (pCap P) (pNb P) (pT P) HT Hw).
    apply elem_of_list_fmap. by exists (t, b, base). }
  assert (forall t, (t < pT P)%nat -> exists parts, fR t = Some (concat parts) /\ Forall2 (partOk (pCap P) bins) (placesOf (pCap P) (pNb P) (pT P) t) parts) as AR.
  { intros t Ht. apply recvAssign_ok; [done|]. intros t' b base H. pose proof (placesOf_fst _ _ _ _ _ H) as E. cbn in E. subst t'.
    destruct (PL t b base Ht H) as [_ Hb]. destruct (binsOk_elem P R bins b 0 OB Hb) as (bin & E & _). exists bin. split; [done|]. by eapply binsOk_length. }
  set (gR := fun t => default [] (fR t)).
  assert (mapM fR (seq 0 (pT P)) = Some (map gR (seq 0 (pT P)))) as ->.
  { apply Dcw_Proofs.mapM_total. intros t Ht. apply elem_of_seq in Ht. destruct (AR t ltac:(lia)) as (parts & E & _). unfold gR. by rewrite E. }
  assert (forall t, (t < pT P)%nat -> exists parts, gR t = concat parts /\ Forall2 (partOk (pCap P) bins) (placesOf (pCap P) (pNb P) (pT P) t) parts) as AR'.
  { intros t Ht. destruct (AR t Ht) as (parts & E & F). exists parts. split; [|done]. unfold gR. by rewrite E. }
  pose proof (party_masks P R bins (pEncR P) (map (nco P) R) gR HR OB AR') as MR.
  set (masksR := threadMasks (pEncR P) (map (nco P) R) (map gR (seq 0 (pT P))) (replicate (pN P) 0)) in *.
  eexists. split; [reflexivity|]. eexists. split; [reflexivity|]. split; [apply (concat_omap_length (fun t => findMask P _) chan)|].
  intros p Hp. apply (elem_concat_omap (fun t => findMask P _) chan) in Hp as (t & m & Ht & Hm & Hm' & Ef). cbn beta in Ef.
  unfold findMask in Ef. destruct (list_find _ _) as [[j [k [q full]]]|] eqn:El; [|done]. destruct (_ =? m) eqn:Em; [|done]. injection Ef as <-. apply N.eqb_eq in Em as <-.
  apply list_find_Some in El as (El & _ & _). apply elem_of_list_lookup_2 in El.
  assert (forall es acc e, e ∈ foldl tabInsert acc es -> e ∈ acc \/ e ∈ es) as SUB.
  { clear. induction es as [|d es IH]; intros acc e H; cbn in H; [by left|]. apply IH in H as [H|H]; [|right; by right]. unfold tabInsert in H. case_bool_decide; [by left|].
    apply elem_of_app in H as [H|H%elem_of_list_singleton]; [by left|]. subst. right. left. }
  apply SUB in El as [El|El]; [by apply elem_of_nil in El|]. unfold recvEntries in El. apply elem_of_concat in El as (l1 & He & H).
  apply elem_of_list_fmap in H as ([[t' b] base] & -> & Hpl). pose proof (placesOf_fst _ _ _ _ _ Hpl) as E. cbn in E. subst t'.
  apply elem_of_concat in He as (l2 & He & H). apply elem_of_list_fmap in H as (i & -> & Hi).
  destruct (PL t b base (HTh t Ht) Hpl) as [Hpl' Hb]. destruct (binsOk_elem P R bins b i OB Hb) as (bin & Eb & _ & HI). rewrite Eb in Hi. apply HI in Hi as (x & Ex & Hx). subst b.
  destruct (MR _ _ _ _ _ Hpl' Ex eq_refl) as (s & Hs & Es). apply elem_of_lookup_imap_1 in He as (l & mm & Q & Hl). injection Q as -> -> ->.
  unfold itemMasks in Hl. rewrite (list_lookup_fmap (fun l => N.lxor _ _)) in Hl. destruct (seq 0 (pCap P) !! l) as [l'|] eqn:El'; [|done]. apply lookup_seq in El' as [-> El']. cbn in Hl.
  injection Hl as <-. cbn [Nat.add] in *.
  assert (((i * pCap P + l) / pCap P)%nat = i) as ->. { rewrite Nat.div_add_l by lia. rewrite Nat.div_small by lia. lia. }
  split; [apply lookup_lt_Some in Ex; lia|]. eexists. split; [exact Hm'|]. rewrite Nat2N.id. exists x, t, base, s, l. split; [done|]. split; [done|]. split; [done|]. split; [done|].
  rewrite Es, (list_lookup_fmap (nco P)), Ex. cbn [default fmap option_fmap option_map]. unfold id. rewrite (N.lxor_comm (pEncR P _ _ _)). done.
Qed.
End Rr17a.
