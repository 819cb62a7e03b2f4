(** Proofs about the receivers of RR17b and GRR18 on freely chosen messages. *)
From Verif Require Import Base Partition_Model File_Model Foreign_Spec Foreign_Proofs Foreign2_Model Foreign2_Spec.
From Verif Require Import Ecdh_Proofs.
From Verif Require Rr17_Model Rr17_Proofs Rr17a_Model Rr17a_Spec Rr17a_Proofs Rr17b_Model Rr17b_Spec Rr17b_Proofs Grr18_Model Grr18_Spec Grr18_Proofs Dcw_Proofs.

Lemma little_le l : leBytes l = little l.
Proof. induction l as [|b l IH]; [done|]. cbn. by rewrite IH. Qed.

Section Rr17b.
Import Rr17_Model Rr17_Proofs Rr17b_Model Rr17b_Spec Rr17b_Proofs.
Local Arguments setSize : simpl never.

Lemma rowsOf_length size k m : (k * size <= length m)%nat -> Forall (fun r => length r = size) (rowsOf size k m).
Proof. intros H. apply Forall_fmap, Forall_forall. intros j Hj. apply elem_of_seq in Hj. cbn. rewrite take_length, drop_length. nia. Qed.

(** What is found in one message. *)
Lemma scan_message try cap m k : length m = (k * setSize cap)%nat ->
  scanItems try cap m k 0 = Done ((k * setSize cap)%nat, omap (rowMatch try cap) (rowsOf (setSize cap) k m)).
Proof.
  intros L. rewrite scanItems_eq by lia. f_equal. f_equal. unfold rowsOf. rewrite omap_map. apply omap_ext_in. intros j Hj. apply elem_of_seq in Hj. cbn [Nat.add].
  rewrite <- (take_drop (setSize cap) (drop (j * setSize cap) m)) at 1. apply rowMatch_app. rewrite take_length, drop_length. nia.
Qed.

(** The rows of a channel. *)
Definition chanRows (cap : nat) (cs : list (nat * nat)) (msgs : list (list N)) : list (list N) :=
  concat (zip_with (fun (c : nat * nat) m => rowsOf (setSize cap) c.2 m) cs msgs).

Lemma scanGiven_eq try cap cs msgs : Forall2 (fun (c : nat * nat) m => length m = (c.2 * setSize cap)%nat) cs msgs ->
  scanGiven try cap cs msgs = Done (omap (rowMatch try cap) (chanRows cap cs msgs)).
Proof.
  induction 1 as [|c m cs msgs L F IH]; [done|]. cbn [scanGiven]. rewrite L, Nat.eqb_refl. cbn [negb]. rewrite scan_message by done. rewrite IH.
  unfold chanRows. cbn [zip_with concat]. by rewrite omap_app.
Qed.

Lemma findSlots_Some try b k i : findSlots try b k = Some i -> exists j, (j < k)%nat /\ try (leBytes (take 4 (drop (20 * j) b))) (leBytes (take 16 (drop (20 * j + 4) b))) = Some i.
Proof.
  revert b. induction k as [|k IH]; intros b; [done|]. cbn [findSlots]. destruct (try _ _) as [i'|] eqn:E.
  - intros [= <-]. exists 0%nat. split; [lia|]. cbn [Nat.mul Nat.add]. by rewrite drop_0.
  - intros H. destruct (IH _ H) as (j & Hj & E2). exists (S j). split; [lia|]. rewrite !drop_drop in E2. replace (20 * S j)%nat with (20 + 20 * j)%nat by lia.
    replace (20 + 20 * j + 4)%nat with (20 + (20 * j + 4))%nat by lia. exact E2.
Qed.

Lemma rr17b_opened ss P rd R chan old : paramsOk P R -> rOrdR rd ≡ₚ seq 0 (pN P) -> (forall t l, rTab rd t l ≡ₚ l) -> (forall t, t ∈ rOut rd -> (t < pT P)%nat) ->
  (forall u, Insert u ∈ rSched rd -> (u < pT P)%nat) ->
  (forall t, t ∈ rOut rd -> Forall2 (fun (c : nat * nat) m => length m = (c.2 * setSize (pCap P))%nat) (channelChunks ss (pN P) (pT P) t) (chan t)) ->
  let rows := concat (map (fun t => chanRows (pCap P) (channelChunks ss (pN P) (pT P) t) (chan t)) (rOut rd)) in
  exists new, rr17bReceive ss P rd R chan old = Done (old ++ new) /\ (length new <= length rows)%nat /\
    forall p, p ∈ new -> p < N.of_nat (length R) /\ opened (pEnc P) (pCom P) (otInput P) (pT P) (pCap P) R rows (N.to_nat p).
Proof.
  intros HR HO HTab HTh HU HC rows. pose proof (toA_ok P R HR) as AR. pose proof HR as (Hn & Hnb & Hcap & HT & HM & Hw & Hw2 & HLR & HCR & HE & HCm).
  assert (N.of_nat (pNb P) * N.of_nat (pT P) < 2 ^ 64) as HwA by nia.
  destruct (Rr17a_Proofs.mkBins_ok (toA P) R _ AR HO) as (binsR & ER & OR). change (Rr17a_Model.mkBins (toA P) R (rOrdR rd)) with (mkBins P R (rOrdR rd)) in ER.
  unfold rr17bReceive. rewrite HLR, Nat.eqb_refl. cbn [negb]. assert ((16 <? pMask P) = false) as -> by (apply N.ltb_ge; done). rewrite ER.
  assert (forall t, (t < pT P)%nat -> forall t' b base, (t', b, base) ∈ placesOf (pCap P) (pNb P) (pT P) t -> t' = t /\ (b < pNb P)%nat) as BN.
  { intros t Ht t' b base Hpl. pose proof (placesOf_fst _ _ _ _ _ Hpl) as E0. cbn in E0. subst t'. split; [done|]. assert (b ∈ seq 0 (pNb P)) as Hb; [|apply elem_of_seq in Hb; lia].
    rewrite <- (places_bins (pCap P) (pNb P) (pT P) HT HwA). apply elem_of_list_fmap. exists (t, b, base). split; [done|]. unfold places. apply elem_of_concat. eexists. split; [exact Hpl|].
    apply elem_of_list_fmap. exists t. split; [done|]. apply elem_of_seq. lia. }
  assert (forall t, (t < pT P)%nat -> forall t' b base, (t', b, base) ∈ placesOf (pCap P) (pNb P) (pT P) t -> exists bin, binsR !! b = Some bin /\ (length bin <= pCap P)%nat) as BIN.
  { intros t Ht t' b base Hpl. destruct (BN t Ht _ _ _ Hpl) as [-> Hb]. destruct (Rr17a_Proofs.binsOk_elem (toA P) R binsR b 0 OR Hb) as (bin & Eb & _). exists bin. split; [done|].
    by apply (Rr17a_Proofs.binsOk_length (toA P) R binsR b bin OR). }
  set (fR := fun t => recvAssign (pCap P) (rDraw rd) binsR (placesOf (pCap P) (pNb P) (pT P) t) (seq 0 (pCap P))).
  assert (forall t, (t < pT P)%nat -> exists parts, fR t = Some (concat parts) /\ Forall2 (partOk (pCap P) binsR) (placesOf (pCap P) (pNb P) (pT P) t) parts) as FR.
  { intros t Ht. apply recvAssign_ok; [done|]. by apply BIN. }
  set (gR := fun t => default [] (fR t)).
  assert (mapM fR (seq 0 (pT P)) = Some (map gR (seq 0 (pT P)))) as ->.
  { apply Dcw_Proofs.mapM_total. intros t Ht. apply elem_of_seq in Ht. destruct (FR t ltac:(lia)) as (parts & E & _). unfold gR. by rewrite E. }
  assert (forall u i s, (u < pT P)%nat -> (i, s) ∈ gR u -> (i < length R)%nat) as ITEM.
  { intros u i s Hu Hi. destruct (FR u Hu) as (parts & E & F). unfold gR in Hi. rewrite E in Hi. cbn in Hi. apply elem_of_concat in Hi as (part & Hi & Hpart).
    apply elem_of_list_lookup in Hpart as [k Hk]. destruct (Forall2_lookup_r _ _ _ _ _ F Hk) as ([[t' b] base] & Epl & bin & Eb & Hfst & _ & L). cbn [fst snd] in *.
    apply elem_of_list_lookup_2 in Epl. destruct (BN u Hu _ _ _ Epl) as [-> Hb]. destruct (Rr17a_Proofs.binsOk_elem (toA P) R binsR b i OR Hb) as (bin' & Eb' & _ & HI).
    rewrite Eb in Eb'. injection Eb' as <-. assert (i ∈ bin) as Hbin by (rewrite <- Hfst; by apply (elem_of_list_fmap_1 fst) in Hi). apply HI in Hbin as (x & Ex & _). by eapply lookup_lt_Some. }
  set (tab := fun t => rTab rd t (concat (map (fun u => tagEntries P R (default [] (map gR (seq 0 (pT P)) !! u)) u) (seen t (rSched rd))))). cbv zeta.
  set (ch := fun t => chanRows (pCap P) (channelChunks ss (pN P) (pT P) t) (chan t)).
  match goal with |- context [collect ?l] => assert (l = map Done (map (fun t => omap (rowMatch (tryTag (pCom P) R (tab t)) (pCap P)) (ch t)) (rOut rd))) as -> end.
  { rewrite map_map. apply map_ext_in. intros t Ht. apply elem_of_list_In in Ht. apply scanGiven_eq. by apply HC. }
  rewrite collect_done. eexists. split; [reflexivity|]. split.
  { rewrite map_length. apply (concat_omap_length (fun t => rowMatch (tryTag (pCom P) R (tab t)) (pCap P)) ch). }
  intros p Hp. apply elem_of_list_fmap in Hp as (i & -> & Hi). apply (elem_concat_omap (fun t => rowMatch (tryTag (pCom P) R (tab t)) (pCap P)) ch) in Hi as (t & row & Ht & _ & Hrow & Ef).
  unfold rowMatch in Ef. apply findSlots_Some in Ef as (k & Hk & Ef). apply tryTag_Some in Ef as (e & He & <- & Etag & Ecom).
  unfold tab in He. rewrite HTab in He. apply elem_of_concat in He as (l & He & Hl). apply elem_of_list_fmap in Hl as (u & -> & Hu). apply seen_insert in Hu. pose proof (HU u Hu) as Lu.
  rewrite (list_lookup_fmap gR), lookup_seq_lt in He by done. cbn [fmap option_fmap option_map default] in He. unfold id in He. unfold tagEntries in He.
  apply elem_of_list_fmap in He as ([i s] & -> & Hi). cbn [fst snd Nat.add] in *. pose proof (ITEM u i s Lu Hi) as Li. split; [lia|]. rewrite Nat2N.id.
  destruct (lookup_lt_is_Some_2 R i Li) as [x Ex]. rewrite Ex in Etag, Ecom. cbn [default] in Etag, Ecom. unfold id in Etag, Ecom. rewrite !drop_drop in Etag, Ecom. rewrite !little_le in Ecom.
  rewrite !little_le in Etag. exists x, u, s, row, k. split; [done|]. split; [done|]. split; [exact Hrow|]. split; [done|]. split; [by rewrite Etag|].
  replace (24 + 20 * k)%nat with (20 + (20 * k + 4))%nat by lia. exact Ecom.
Qed.
End Rr17b.
