(** Proofs about RR16. *)
From Verif Require Import Base Partition_Model Dcw_Spec Dcw_Proofs Ecdh_Proofs Rr16_Model Rr16_Spec.

Local Arguments filterPos : simpl never.

(** ** Filter *)

Lemma countOnes_cons b bf : countOnes (b :: bf) = ((if b then 1 else 0) + countOnes bf)%nat.
Proof. unfold countOnes. rewrite filter_cons. destruct b; case_decide; try done. Qed.
Lemma countOnes_le bf : (countOnes bf <= length bf)%nat.
Proof. induction bf as [|b bf IH]; [done|]. rewrite countOnes_cons. cbn [length]. destruct b; lia. Qed.
Lemma countOnes_replicate m : countOnes (replicate m false) = 0%nat.
Proof. induction m as [|m IH]; [done|]. cbn [replicate]. by rewrite countOnes_cons. Qed.
Lemma countOnes_insert bf p : (countOnes (<[p := true]> bf) <= S (countOnes bf))%nat.
Proof.
  revert p. induction bf as [|b bf IH]; intros p; [destruct p; cbn; lia|]. destruct p as [|p]; simpl.
  - rewrite !countOnes_cons. destruct b; lia.
  - rewrite !countOnes_cons. specialize (IH p). destruct b; lia.
Qed.

Lemma setBits_ok ps bf : (forall p, p ∈ ps -> p < N.of_nat (length bf)) ->
  exists bf', setBits ps bf = Some bf' /\ length bf' = length bf /\ (countOnes bf' <= length ps + countOnes bf)%nat /\
    (forall p, bf !! p = Some true -> bf' !! p = Some true) /\ (forall p, p ∈ ps -> bf' !! N.to_nat p = Some true).
Proof.
  revert bf. induction ps as [|p ps IH]; intros bf B; cbn [setBits].
  - exists bf. split; [done|]. split; [done|]. split; [done|]. split; [done|]. intros p Hp. by apply elem_of_nil in Hp.
  - assert (p < N.of_nat (length bf)) as Hp by (apply B; left). unfold writeN. rewrite (proj2 (N.ltb_lt _ _) Hp).
    destruct (IH (<[N.to_nat p := true]> bf)) as (bf' & E & L & C & K & I).
    { intros q Hq. rewrite insert_length. apply B. by right. }
    rewrite insert_length in L. exists bf'. split; [done|]. split; [done|].
    split; [pose proof (countOnes_insert bf (N.to_nat p)); cbn [length]; lia|]. split.
    + intros q Hq. apply K. destruct (decide (q = N.to_nat p)) as [->|]; [apply list_lookup_insert; lia|by rewrite list_lookup_insert_ne].
    + intros q Hq. apply elem_of_cons in Hq as [->|Hq]; [|by apply I]. apply K. apply list_lookup_insert. lia.
Qed.

Lemma filterPos_lt aes ro seed m nh x p : 0 < m -> p ∈ filterPos aes ro seed m nh x -> p < m.
Proof. intros Hm H. unfold filterPos in H. apply elem_of_list_fmap in H as (j & -> & _). apply N.mod_lt. lia. Qed.
Lemma filterPos_length aes ro seed m nh x : length (filterPos aes ro seed m nh x) = nh.
Proof. unfold filterPos. by rewrite map_length, seq_length. Qed.

(** ** Permutation *)

Lemma buildPerm_ok bf zeros ones :
  (countOnes bf <= length ones)%nat -> (length bf <= length zeros + length ones)%nat ->
  exists perm rest, buildPerm bf zeros ones = Some perm /\ length perm = length bf /\
    perm ++ rest ≡ₚ map (fun i => i mod 2 ^ 32) (zeros ++ ones) /\
    forall p, bf !! p = Some true -> exists i, perm !! p = Some (i mod 2 ^ 32) /\ i ∈ ones.
Proof.
  revert zeros ones. induction bf as [|b bf IH]; intros zeros ones C L; cbn [buildPerm].
  - exists [], (map (fun i => i mod 2 ^ 32) (zeros ++ ones)). done.
  - rewrite countOnes_cons in C. cbn [length] in L. pose proof (countOnes_le bf) as CL.
    assert (forall (P : list N -> Prop) o ones' perm, (forall p, bf !! p = Some true -> exists i, perm !! p = Some (i mod 2 ^ 32) /\ i ∈ ones') ->
      forall p, (b :: bf) !! p = Some true -> exists i, (o mod 2 ^ 32 :: perm) !! p = Some (i mod 2 ^ 32) /\ i ∈ o :: ones') as K.
    { intros _ o ones' perm H [|p] Hp; cbn in *; [exists o; split; [done|left]|].
      destruct (H p Hp) as (i & Hi & Hin). exists i. split; [done|by right]. }
    destruct zeros as [|z zeros].
    + destruct ones as [|o ones]; [cbn in L; lia|].
      destruct (IH [] ones) as (perm & rest & -> & Lp & Pp & Kp); [cbn in *; lia|cbn in *; lia|].
      exists (o mod 2 ^ 32 :: perm), rest. split; [done|]. split; [cbn; lia|]. split; [|by apply (K (fun _ => True))].
      cbn [app map] in *. by rewrite Pp.
    + destruct b.
      * destruct ones as [|o ones]; [cbn in C; lia|].
        destruct (IH (z :: zeros) ones) as (perm & rest & -> & Lp & Pp & Kp); [cbn in *; lia|cbn in *; lia|].
        exists (o mod 2 ^ 32 :: perm), rest. split; [done|]. split; [cbn; lia|]. split; [|by apply (K (fun _ => True))].
        cbn [app map]. rewrite Pp. cbn [app map]. rewrite !map_app. cbn [map]. etrans; [apply perm_swap|]. f_equiv. apply Permutation_middle.
      * destruct (IH zeros ones) as (perm & rest & -> & Lp & Pp & Kp); [lia|cbn in *; lia|].
        exists (z mod 2 ^ 32 :: perm), rest. split; [done|]. split; [cbn; lia|]. split; [cbn [app map]; by rewrite Pp|].
        intros [|p] Hp; cbn in *; [done|]. by apply Kp.
Qed.

(** ** Sender's check *)

Lemma checkPerm_valid perm used : NoDup perm -> (forall i, i ∈ perm -> used !! N.to_nat i = Some false) -> checkPerm perm used None = Done None.
Proof.
  revert used. induction perm as [|i perm IH]; intros used ND H; cbn [checkPerm]; [done|].
  apply NoDup_cons in ND as [Hi ND]. assert (used !! N.to_nat i = Some false) as E by (apply H; left).
  rewrite (proj2 (readN_Some _ _ _) E). apply IH; [done|]. intros j Hj. rewrite list_lookup_insert_ne; [apply H; by right|].
  intros EQ. apply N2Nat.inj in EQ as ->. done.
Qed.

Lemma checkPerm_invalid perm used : (forall i, i ∈ perm -> (N.to_nat i < length used)%nat) ->
  ~ (NoDup perm /\ forall i, i ∈ perm -> used !! N.to_nat i = Some false) -> checkPerm perm used None = Done (Some false).
Proof.
  revert used. induction perm as [|i perm IH]; intros used B H; cbn [checkPerm].
  { destruct H. split; [constructor|]. intros i Hi. by apply elem_of_nil in Hi. }
  destruct (lookup_lt_is_Some_2 used (N.to_nat i)) as [u E]; [apply B; left|]. rewrite (proj2 (readN_Some _ _ _) E).
  destruct u; [done|]. apply IH.
  - intros j Hj. rewrite insert_length. apply B. by right.
  - intros [ND HF]. apply H. split.
    + apply NoDup_cons. split; [|done]. intros Hi. specialize (HF i Hi). rewrite list_lookup_insert in HF; [done|]. by eapply lookup_lt_Some.
    + intros j Hj. apply elem_of_cons in Hj as [->|Hj]; [done|]. specialize (HF j Hj).
      destruct (decide (N.to_nat j = N.to_nat i)) as [EQ|NE]; [by rewrite EQ|]. by rewrite list_lookup_insert_ne in HF.
Qed.

(** ** Masks *)

Lemma recvMask_eq msgs perm ps mask : (forall p, p ∈ ps -> (N.to_nat p < length perm)%nat) -> (forall i, i ∈ perm -> (N.to_nat i < length msgs)%nat) ->
  recvMask msgs perm ps mask = Some (N.lxor mask (xorPerm (recvMsg msgs) perm ps)).
Proof.
  intros B1 B2. revert mask. induction ps as [|p ps IH]; intros mask; cbn [recvMask]; [cbn; by rewrite N.lxor_0_r|].
  destruct (lookup_lt_is_Some_2 perm (N.to_nat p)) as [i Ei]; [apply B1; left|]. rewrite (proj2 (readN_Some _ _ _) Ei).
  destruct (lookup_lt_is_Some_2 msgs (N.to_nat i)) as [b Eb]; [apply B2; by eapply elem_of_list_lookup_2|]. rewrite (proj2 (readN_Some _ _ _) Eb).
  rewrite IH by (intros q Hq; apply B1; by right). cbn [xorPerm foldr]. rewrite Ei. change (default 0 (Some i)) with i.
  unfold recvMsg at 2. rewrite Eb. change (default 0 (Some b)) with b. by rewrite N.lxor_assoc.
Qed.

Lemma sendMask_eq msgs perm ps mask : (forall p, p ∈ ps -> (N.to_nat p < length perm)%nat) -> (forall i, i ∈ perm -> (N.to_nat i < length msgs)%nat) ->
  sendMask msgs perm ps mask = Some (N.lxor mask (xorPerm (sendMsg msgs) perm ps)).
Proof.
  intros B1 B2. revert mask. induction ps as [|p ps IH]; intros mask; cbn [sendMask]; [cbn; by rewrite N.lxor_0_r|].
  destruct (lookup_lt_is_Some_2 perm (N.to_nat p)) as [i Ei]; [apply B1; left|]. rewrite (proj2 (readN_Some _ _ _) Ei).
  destruct (lookup_lt_is_Some_2 msgs (N.to_nat i)) as [b Eb]; [apply B2; by eapply elem_of_list_lookup_2|]. rewrite (proj2 (readN_Some _ _ _) Eb).
  rewrite IH by (intros q Hq; apply B1; by right). cbn [xorPerm foldr]. rewrite Ei. change (default 0 (Some i)) with i.
  unfold sendMsg at 2. rewrite Eb. change (default (0, 0) (Some b)) with b. by rewrite N.lxor_assoc.
Qed.

(** ** The map *)

Lemma foldl_maskInsert es m :
  (forall e, e ∈ foldl maskInsert m es -> e ∈ m \/ e ∈ es) /\
  (forall e, e ∈ m \/ e ∈ es -> e.1 ∈ (foldl maskInsert m es).*1).
Proof.
  revert m. induction es as [|e es IH]; intros m; cbn [foldl].
  - split; [by left|]. intros e [H|H]; [|by apply elem_of_nil in H]. by apply (elem_of_list_fmap_1 fst).
  - destruct (IH (maskInsert m e)) as [A B]. split.
    + intros e' H. destruct (A e' H) as [H'|H']; [|right; by right]. unfold maskInsert in H'. case_bool_decide; [by left|].
      apply elem_of_app in H' as [H'|H']; [by left|]. apply elem_of_list_singleton in H' as ->. right. left.
    + intros e' [H|H].
      * apply B. left. unfold maskInsert. case_bool_decide; [done|]. apply elem_of_app. by left.
      * apply elem_of_cons in H as [->|H]; [|apply B; by right]. unfold maskInsert in *. case_bool_decide as D.
        -- apply elem_of_list_fmap in D as (e' & -> & D). apply B. by left.
        -- apply B. left. apply elem_of_app. right. by apply elem_of_list_singleton.
Qed.

Lemma mergeMaps_find es T order k : order ≡ₚ seq 0 T -> length es = T ->
  match list_find (fun e => e.1 = k) (mergeMaps (map localMap es) order) with
  | Some (_, (k', i)) => k' = k /\ (k, i) ∈ concat es
  | None => forall e, e ∈ concat es -> e.1 <> k
  end.
Proof.
  intros HO HL. unfold mergeMaps.
  destruct (foldl_maskInsert (concat (map (fun t => default [] (map localMap es !! t)) order)) []) as [A B].
  assert (forall e, e ∈ concat (map (fun t => default [] (map localMap es !! t)) order) -> e ∈ concat es) as S1.
  { intros e He. apply elem_of_concat in He as (l & Hl & He). apply elem_of_list_fmap in He as (t & -> & Ht).
    rewrite (list_lookup_fmap localMap) in Hl. destruct (es !! t) as [q|] eqn:Eq; [|by apply elem_of_nil in Hl].
    cbn in Hl. destruct (foldl_maskInsert q []) as [A' _]. destruct (A' e Hl) as [H|H]; [by apply elem_of_nil in H|].
    apply elem_of_concat. exists q. split; [done|]. by eapply elem_of_list_lookup_2. }
  assert (forall e, e ∈ concat es -> exists e', e' ∈ concat (map (fun t => default [] (map localMap es !! t)) order) /\ e'.1 = e.1) as S2.
  { intros e He. apply elem_of_concat in He as (q & Hq & He). apply elem_of_list_lookup in He as [t Ht].
    destruct (foldl_maskInsert q []) as [_ B']. specialize (B' e (or_intror Hq)).
    apply elem_of_list_fmap in B' as (e' & E & He'). exists e'. split; [|done]. apply elem_of_concat. exists (localMap q).
    split; [done|]. apply elem_of_list_fmap. exists t. split; [by rewrite (list_lookup_fmap localMap), Ht|].
    rewrite HO. apply elem_of_seq. apply lookup_lt_Some in Ht. lia. }
  destruct (list_find _ _) as [[j [k' i]]|] eqn:E.
  - apply list_find_Some in E as (E & Hk & _). cbn in Hk. subst k'. split; [done|]. apply elem_of_list_lookup_2 in E.
    destruct (A _ E) as [H|H]; [by apply elem_of_nil in H|]. by apply S1.
  - apply list_find_None in E. rewrite Forall_forall in E. intros e He Hk. destruct (S2 e He) as (e' & He' & Hk').
    specialize (B e' (or_intror He')). apply elem_of_list_fmap in B as (e2 & E2 & H2). apply (E e2 H2). congruence.
Qed.

(** ** The run *)

Lemma concat_map_perm {A B} (f : A -> list B) l1 l2 : l1 ≡ₚ l2 -> concat (map f l1) ≡ₚ concat (map f l2).
Proof. intros H. induction H; cbn; [done|by rewrite IHPermutation|rewrite !app_assoc; f_equiv; apply Permutation_app_comm|by etrans]. Qed.

Section Run.
Variable (aes : N -> N -> N) (ro : N -> N -> N) (seed : N) (m nh T n : nat) (total : N).
Variable (zeros ones rmsgs : list N) (smsgs : list (N * N)) (sampled : list bool) (R S : list N).
Hypothesis (HT : (0 < T)%nat) (Hw : N.of_nat n * N.of_nat T < 2 ^ 64) (Hm : (0 < m)%nat) (Ht : total <= 2 ^ 32).
Hypothesis (HR : length R = n) (HS : length S = n) (HO : otsOk zeros ones rmsgs smsgs sampled).

Let pos := filterPos aes ro seed (N.of_nat m) nh.
Let allPos := concat (map pos R).

Lemma allPos_lt p : p ∈ allPos -> p < N.of_nat m.
Proof using Hm.
  clear -Hm. intros H. apply elem_of_concat in H as (l & Hl & H). apply elem_of_list_fmap in H as (x & -> & _). eapply filterPos_lt; [|exact Hl]. lia.
Qed.

Lemma allPos_length : length allPos = (length R * nh)%nat.
Proof using. clear. unfold allPos. induction R as [|x l IH]; [done|]. cbn [map concat]. rewrite app_length, IH. unfold pos. rewrite filterPos_length. cbn. lia. Qed.

(** The receiver's filter. *)
Lemma filter_ok : exists bf, setBits allPos (replicate m false) = Some bf /\ length bf = m /\ (countOnes bf <= n * nh)%nat /\
  forall p, p ∈ allPos -> bf !! N.to_nat p = Some true.
Proof using HR Hm.
  clear -HR Hm. destruct (setBits_ok allPos (replicate m false)) as (bf & E & L & C & _ & K).
  { intros p Hp. rewrite replicate_length. by apply allPos_lt. }
  exists bf. rewrite replicate_length in L. rewrite countOnes_replicate, allPos_length, HR in C. split; [done|]. split; [done|]. split; [lia|done].
Qed.

Lemma perm_ok bf : length bf = m -> (countOnes bf <= length ones)%nat -> (m <= length zeros + length ones)%nat ->
  exists perm, buildPerm bf zeros ones = Some perm /\ length perm = m /\ NoDup perm /\
    (forall i, i ∈ perm -> i ∈ zeros ++ ones /\ sampled !! N.to_nat i = Some false /\ (N.to_nat i < length smsgs)%nat) /\
    forall p, bf !! p = Some true -> exists i, perm !! p = Some i /\ i ∈ ones.
Proof using HO.
  clear -HO. intros L C LL. destruct HO as (ND & L1 & L2 & B & F & M).
  assert (forall i, i ∈ zeros ++ ones -> (N.to_nat i < length smsgs)%nat) as BI.
  { intros i Hi. apply F in Hi. apply lookup_lt_Some in Hi. lia. }
  assert (forall i, i ∈ zeros ++ ones -> i mod 2 ^ 32 = i) as TR.
  { intros i Hi. apply BI in Hi. apply N.mod_small. lia. }
  destruct (buildPerm_ok bf zeros ones C ltac:(lia)) as (perm & rest & E & LP & P & K).
  assert (map (fun i => i mod 2 ^ 32) (zeros ++ ones) = zeros ++ ones) as EM.
  { etrans; [apply map_ext_in|apply map_id]. intros i Hi. apply TR. by apply elem_of_list_In. }
  rewrite EM in P. exists perm. split; [done|]. split; [lia|].
  assert (forall i, i ∈ perm -> i ∈ zeros ++ ones) as SUB.
  { intros i Hi. rewrite <- P. apply elem_of_app. by left. }
  split; [|split].
  - apply (NoDup_app perm rest). eapply NoDup_perm; [symmetry; exact P|done].
  - intros i Hi. apply SUB in Hi. split; [done|]. split; [by apply F|by apply BI].
  - intros p Hp. destruct (K p Hp) as (i & Hi & Hin). exists i. rewrite TR in Hi by (apply elem_of_app; by right). done.
Qed.

Lemma recvFirst_ok mergeOrd : (countOnes (default [] (setBits allPos (replicate m false))) <= length ones)%nat -> (m <= length zeros + length ones)%nat ->
  exists bf perm, setBits allPos (replicate m false) = Some bf /\ buildPerm bf zeros ones = Some perm /\ length perm = m /\ NoDup perm /\
    (forall i, i ∈ perm -> i ∈ zeros ++ ones /\ sampled !! N.to_nat i = Some false /\ (N.to_nat i < length smsgs)%nat) /\
    (forall x, x ∈ R -> xorPerm (recvMsg rmsgs) perm (pos x) = xorPerm (sendMsg smsgs) perm (pos x)) /\
    recvFirst aes ro seed m nh T n total zeros ones rmsgs R mergeOrd =
      Done (perm, mergeMaps (map localMap (map (fun t => map (fun i => (xorPerm (recvMsg rmsgs) perm (pos (default 0 (R !! i))) mod 2 ^ 64, i)) (idxRange n T t)) (seq 0 T))) mergeOrd) /\
    senderRun aes ro seed m nh T n smsgs sampled S perm =
      Done (Some (map (fun t => map (fun i => xorPerm (sendMsg smsgs) perm (pos (default 0 (S !! i)))) (idxRange n T t)) (seq 0 T))).
Proof using HT Hw Hm Ht HR HS HO.
  intros C L. destruct filter_ok as (bf & E & Lb & _ & K). rewrite E in C. change (default [] (Some bf)) with bf in C.
  destruct (perm_ok bf Lb C L) as (perm & EP & LP & NDP & IP & KP). exists bf, perm.
  destruct HO as (ND & L1 & L2 & B & F & M).
  split; [done|]. split; [done|]. split; [done|]. split; [done|]. split; [done|].
  assert (forall x p, p ∈ pos x -> (N.to_nat p < length perm)%nat) as BP.
  { intros x p Hp. apply filterPos_lt in Hp; lia. }
  assert (forall t i, t ∈ seq 0 T -> i ∈ idxRange n T t -> (i < n)%nat) as BI.
  { intros t i Htt Hi. apply elem_of_seq in Htt. apply (idxRange_lt n T t i HT Hw); [lia|exact Hi]. }
  split; [|split].
  - intros x Hx. unfold xorPerm.
    assert (forall p, p ∈ pos x -> exists i, perm !! N.to_nat p = Some i /\ i ∈ ones) as H.
    { intros p Hp. apply KP, K. apply elem_of_concat. exists (pos x). split; [done|]. by apply (elem_of_list_fmap_1 pos). }
    revert H. generalize (pos x). intros l. induction l as [|p l IH]; intros H; cbn; [done|].
    rewrite IH by (intros q Hq; apply H; by right). destruct (H p) as (i & Hi & Hin); [left|]. rewrite Hi.
    change (default 0 (Some i)) with i. by rewrite M.
  - unfold recvFirst. rewrite HR, Nat.eqb_refl. cbn [negb]. rewrite (proj2 (N.ltb_ge _ _) Ht). fold pos. fold allPos. rewrite E, EP.
    rewrite (mapM_map _ (fun t => map (fun i => (xorPerm (recvMsg rmsgs) perm (pos (default 0 (R !! i))) mod 2 ^ 64, i)) (idxRange n T t))); [done|].
    intros t Htt. apply mapM_map. intros i Hi. specialize (BI t i Htt Hi). destruct (lookup_lt_is_Some_2 R i ltac:(lia)) as [x Hx]. rewrite Hx.
    change (default 0 (Some x)) with x. rewrite recvMask_eq; [by rewrite N.lxor_0_l|apply BP|]. intros k Hk. rewrite L1. by apply IP.
  - unfold senderRun. rewrite HS, LP, !Nat.eqb_refl. cbn [negb orb].
    rewrite (mapM_map _ (fun t => map (fun i => xorPerm (sendMsg smsgs) perm (pos (default 0 (S !! i)))) (idxRange n T t))).
    2:{ intros t Htt. apply mapM_map. intros i Hi. specialize (BI t i Htt Hi). destruct (lookup_lt_is_Some_2 S i ltac:(lia)) as [x Hx]. rewrite Hx.
        change (default 0 (Some x)) with x. rewrite sendMask_eq; [by rewrite N.lxor_0_l|apply BP|]. intros k Hk. by apply IP. }
    unfold validate. rewrite checkPerm_valid; [done|done|]. intros i Hi. by apply IP.
Qed.

(** Exactly the common positions. *)
Lemma run_exact mergeOrd outOrd old : mergeOrd ≡ₚ seq 0 T -> outOrd ≡ₚ seq 0 T ->
  (countOnes (default [] (setBits allPos (replicate m false))) <= length ones)%nat -> (m <= length zeros + length ones)%nat ->
  exists perm, (exists bf, setBits allPos (replicate m false) = Some bf /\ buildPerm bf zeros ones = Some perm) /\
    let keyR x := xorPerm (recvMsg rmsgs) perm (pos x) mod 2 ^ 64 in
    let keyS x := xorPerm (sendMsg smsgs) perm (pos x) mod 2 ^ 64 in
    (forall x, x ∈ R -> keyR x = keyS x) /\
    exists out, rr16Run aes ro seed m nh T n total zeros ones rmsgs smsgs sampled R S mergeOrd outOrd old = Done (old ++ out) /\
    (NoDup (map keyR R) -> out ≡ₚ commonPositions (map keyR R) (map keyS S)).
Proof using HT Hw Hm Ht HR HS HO.
  intros HM HOut C L. destruct (recvFirst_ok mergeOrd C L) as (bf & perm & E & EP & LP & NDP & IP & XE & E1 & E2).
  exists perm. split; [eauto|]. cbv zeta. split; [intros x Hx; by rewrite XE|].
  unfold rr16Run. rewrite E1, E2. unfold recvSecond. eexists. split; [done|]. intros ND.
  set (keyR := fun x => xorPerm (recvMsg rmsgs) perm (pos x) mod 2 ^ 64) in *.
  set (keyS := fun x => xorPerm (sendMsg smsgs) perm (pos x) mod 2 ^ 64) in *.
  rewrite (concat_map_perm _ _ _ HOut).
  match goal with |- concat (map (fun t => findMasks ?mp _) _) ≡ₚ _ => set (mp' := mp) end.
  assert (forall k, match list_find (fun e => e.1 = k) mp' with Some (_, (_, i)) => list_find (fun x => x = k) (map keyR R) = Some (i, k)
                    | None => list_find (fun x => x = k) (map keyR R) = None end) as FM.
  { intros k. pose proof (mergeMaps_find (map (fun t => map (fun i => (xorPerm (recvMsg rmsgs) perm (pos (default 0 (R !! i))) mod 2 ^ 64, i)) (idxRange n T t)) (seq 0 T)) T mergeOrd k HM) as F.
    rewrite map_length, seq_length in F. specialize (F eq_refl). fold mp' in F.
    rewrite <- (map_map (idxRange n T) (map (fun i => (xorPerm (recvMsg rmsgs) perm (pos (default 0 (R !! i))) mod 2 ^ 64, i)))) in F.
    rewrite concat_map_map in F. change idxRange with Ecdh_Model.idxRange in F. rewrite (idxRange_concat n T HT Hw) in F.
    destruct (list_find _ mp') as [[j [k' i]]|].
    - destruct F as [-> F]. apply elem_of_list_fmap in F as (i' & E' & Hi'). apply elem_of_seq in Hi'.
      assert (i' = i /\ k = keyR (default 0 (R !! i))) as [-> ->] by (split; unfold keyR; congruence).
      destruct (lookup_lt_is_Some_2 R i ltac:(lia)) as [x Hx]. rewrite Hx. change (default 0 (Some x)) with x.
      apply list_find_Some. split; [by rewrite (list_lookup_fmap keyR), Hx|]. split; [done|]. intros j' y Hj' Hlt ->.
      assert (i = j'); [|lia]. eapply (NoDup_lookup (map keyR R)); [done| |exact Hj']. by rewrite (list_lookup_fmap keyR), Hx.
    - apply list_find_None, Forall_forall. intros k' Hk' ->. apply elem_of_list_fmap in Hk' as (x & -> & Hx).
      apply elem_of_list_lookup in Hx as [i Hi]. apply (F (keyR x, i)); [|done]. apply elem_of_list_fmap. exists i.
      rewrite Hi. split; [done|]. apply elem_of_seq. apply lookup_lt_Some in Hi. lia. }
  match goal with |- ?a ≡ₚ ?b => assert (a = b) as ->; [|done] end.
  unfold commonPositions. rewrite omap_map.
  etrans; [|].
  2:{ rewrite <- (map_lookup_seq S) at 1. rewrite omap_map, HS, <- (idxRange_concat n T HT Hw), <- concat_map_omap. reflexivity. }
  f_equal. apply map_ext_in. intros t Htt. apply in_seq in Htt.
  rewrite (list_lookup_fmap (fun t => map (fun i => xorPerm (sendMsg smsgs) perm (pos (default 0 (S !! i)))) (idxRange n T t))), lookup_seq_lt by lia.
  cbn [fmap option_fmap option_map]. match goal with |- context [default [] (Some ?x)] => change (default [] (Some x)) with x end.
  unfold findMasks. rewrite omap_map. apply omap_ext_in. intros i _.
  specialize (FM (keyS (default 0 (S !! i)))). change (xorPerm (sendMsg smsgs) perm (pos (default 0 (S !! i))) mod 2 ^ 64) with (keyS (default 0 (S !! i))).
  destruct (list_find _ mp') as [[j [k' i']]|]; by rewrite FM.
Qed.
End Run.

(** ** Sender with an invalid permutation *)

Lemma senderRun_invalid aes ro seed m nh T n msgs sampled S perm : (0 < T)%nat -> N.of_nat n * N.of_nat T < 2 ^ 64 -> (0 < m)%nat ->
  length S = n -> length perm = m -> length msgs = length sampled ->
  (forall i, i ∈ perm -> (N.to_nat i < length sampled)%nat) ->
  ~ (NoDup perm /\ forall i, i ∈ perm -> sampled !! N.to_nat i = Some false) ->
  senderRun aes ro seed m nh T n msgs sampled S perm = Thrown None.
Proof.
  intros HT Hw Hm HS LP LM B H. unfold senderRun. rewrite HS, LP, !Nat.eqb_refl. cbn [negb orb].
  rewrite (mapM_map _ (fun t => map (fun i => xorPerm (sendMsg msgs) perm (filterPos aes ro seed (N.of_nat m) nh (default 0 (S !! i)))) (idxRange n T t))).
  2:{ intros t Htt. apply mapM_map. intros i Hi. apply elem_of_seq in Htt.
      assert (i < n)%nat by (apply (idxRange_lt n T t i HT Hw); [lia|exact Hi]).
      destruct (lookup_lt_is_Some_2 S i ltac:(lia)) as [x Hx]. rewrite Hx. change (default 0 (Some x)) with x.
      rewrite sendMask_eq; [by rewrite N.lxor_0_l| |].
      - intros p Hp. apply filterPos_lt in Hp; lia.
      - intros k Hk. rewrite LM. by apply B. }
  unfold validate. by rewrite checkPerm_invalid.
Qed.

Lemma senderRun_valid aes ro seed m nh T n msgs sampled S perm : (0 < T)%nat -> N.of_nat n * N.of_nat T < 2 ^ 64 -> (0 < m)%nat ->
  length S = n -> length perm = m -> length msgs = length sampled ->
  NoDup perm -> (forall i, i ∈ perm -> sampled !! N.to_nat i = Some false) ->
  exists masks, senderRun aes ro seed m nh T n msgs sampled S perm = Done (Some masks).
Proof.
  intros HT Hw Hm HS LP LM ND B. unfold senderRun. rewrite HS, LP, !Nat.eqb_refl. cbn [negb orb].
  rewrite (mapM_map _ (fun t => map (fun i => xorPerm (sendMsg msgs) perm (filterPos aes ro seed (N.of_nat m) nh (default 0 (S !! i)))) (idxRange n T t))).
  2:{ intros t Htt. apply mapM_map. intros i Hi. apply elem_of_seq in Htt.
      assert (i < n)%nat by (apply (idxRange_lt n T t i HT Hw); [lia|exact Hi]).
      destruct (lookup_lt_is_Some_2 S i ltac:(lia)) as [x Hx]. rewrite Hx. change (default 0 (Some x)) with x.
      rewrite sendMask_eq; [by rewrite N.lxor_0_l| |].
      - intros p Hp. apply filterPos_lt in Hp; lia.
      - intros k Hk. apply B, lookup_lt_Some in Hk. lia. }
  unfold validate. rewrite checkPerm_valid by done. cbn. eauto.
Qed.

(** ** Shared buffer *)

Fixpoint execOps (m : N) (ops : list op) (buf out : list N) : list N * list N :=
  match ops with
  | [] => (buf, out)
  | WriteBlock c v :: r => execOps m r (<[c := v]> buf) out
  | ReadWord j :: r => execOps m r buf (out ++ [bufWord buf j mod m])
  end.

Lemma execOps_app m o1 o2 buf out : execOps m (o1 ++ o2) buf out = let '(b, o) := execOps m o1 buf out in execOps m o2 b o.
Proof. revert buf out. induction o1 as [|[c v|j] o1 IH]; intros buf out; cbn; [done|apply IH|apply IH]. Qed.

Lemma execOps_writes m (f : nat -> N) s k buf out :
  execOps m (map (fun c => WriteBlock c (f c)) (seq s k)) buf out = (foldl (fun b c => <[c := f c]> b) buf (seq s k), out).
Proof. revert s buf. induction k as [|k IH]; intros s buf; cbn; [done|apply IH]. Qed.

Lemma foldl_insert_seq (f : nat -> N) buf k : (k <= length buf)%nat ->
  foldl (fun b c => <[c := f c]> b) buf (seq 0 k) = map f (seq 0 k) ++ drop k buf.
Proof.
  induction k as [|k IH]; intros H; [done|]. rewrite seq_S, foldl_app, IH by lia. cbn [foldl].
  rewrite insert_app_r_alt by (rewrite map_length, seq_length; lia). rewrite map_length, seq_length, map_app, <- app_assoc. f_equal.
  replace (0 + k - k)%nat with 0%nat by lia. rewrite (drop_S buf (default 0 (buf !! k)) k); [done|].
  destruct (lookup_lt_is_Some_2 buf k ltac:(lia)) as [x ->]. done.
Qed.

Lemma execOps_reads m js buf out : execOps m (map ReadWord js) buf out = (buf, out ++ map (fun j => bufWord buf j mod m) js).
Proof. revert out. induction js as [|j js IH]; intros out; cbn; [by rewrite app_nil_r|]. rewrite IH, <- app_assoc. done. Qed.

Lemma execOps_item aes ro seed m nh x buf out : length buf = ((nh + 1) / 2)%nat ->
  exists buf', length buf' = ((nh + 1) / 2)%nat /\ execOps m (itemOps aes ro seed nh x) buf out = (buf', out ++ filterPos aes ro seed m nh x).
Proof.
  intros L. unfold itemOps. rewrite execOps_app, execOps_writes, foldl_insert_seq by lia. rewrite execOps_reads. eexists.
  split; [|f_equal; f_equal; unfold filterPos; apply map_ext_in].
  - rewrite app_length, map_length, seq_length, drop_length. lia.
  - intros j Hj. apply in_seq in Hj. unfold bufWord, word. f_equal.
    assert (j / 2 < (nh + 1) / 2)%nat as Hd by (apply Nat.div_lt_upper_bound; [lia|]; pose proof (Nat.div_mod (nh + 1) 2 ltac:(lia)); pose proof (Nat.mod_upper_bound (nh + 1) 2 ltac:(lia)); lia).
    rewrite lookup_app_l by (by rewrite map_length, seq_length). rewrite (list_lookup_fmap (fun c => aes (ro seed x) (N.of_nat c))), lookup_seq_lt by done. done.
Qed.

Lemma execOps_items aes ro seed m nh l buf out : length buf = ((nh + 1) / 2)%nat ->
  exists buf', length buf' = ((nh + 1) / 2)%nat /\
    execOps m (concat (map (itemOps aes ro seed nh) l)) buf out = (buf', out ++ concat (map (filterPos aes ro seed m nh) l)).
Proof.
  revert buf out. induction l as [|x l IH]; intros buf out L; cbn [map concat]; [exists buf; cbn; by rewrite app_nil_r|].
  destruct (execOps_item aes ro seed m nh x buf out L) as (b1 & L1 & E1). rewrite execOps_app, E1.
  destruct (IH b1 (out ++ filterPos aes ro seed m nh x) L1) as (b2 & L2 & E2). exists b2. split; [done|]. by rewrite E2, <- app_assoc.
Qed.

(** One thread runs alone for a while. *)
Lemma hashRun_alone m t ops rest buf opss outs out : opss !! t = Some (ops ++ rest) -> outs !! t = Some out ->
  hashRun m (replicate (length ops) t) (mkHashState buf opss outs) =
  mkHashState (execOps m ops buf out).1 (<[t := rest]> opss) (<[t := (execOps m ops buf out).2]> outs).
Proof.
  unfold hashRun. revert buf opss outs out. induction ops as [|o ops IH]; intros buf opss outs out E1 E2; cbn [length replicate foldl].
  - cbn. by rewrite !list_insert_id.
  - unfold hashStep at 2. cbn [hsOps]. rewrite E1. cbn [app].
    assert (t < length opss)%nat as Lt by (by eapply lookup_lt_Some). assert (t < length outs)%nat as Lt2 by (by eapply lookup_lt_Some).
    destruct o as [c v|j]; cbn [hsBuf hsOps hsOut execOps].
    + erewrite IH; [|by apply list_lookup_insert|exact E2]. by rewrite list_insert_insert.
    + rewrite E2. change (default [] (Some out)) with out.
      erewrite IH; [|by apply list_lookup_insert|by apply list_lookup_insert]. by rewrite !list_insert_insert.
Qed.

(** A thread without work makes no step. *)
Lemma hashRun_idle m t k s : hsOps s !! t = Some [] \/ hsOps s !! t = None -> hashRun m (replicate k t) s = s.
Proof.
  intros H. unfold hashRun. induction k as [|k IH]; cbn [replicate foldl]; [done|].
  assert (hashStep m t s = s) as ->; [|done]. unfold hashStep. by destruct H as [-> | ->].
Qed.

Lemma itemOps_length aes ro seed nh x : length (itemOps aes ro seed nh x) = ((nh + 1) / 2 + nh)%nat.
Proof. unfold itemOps. by rewrite app_length, !map_length, !seq_length. Qed.

(** Item by item: nothing is lost or mixed. *)
Lemma hash_atomic aes ro seed m nh order : forall buf rem outs,
  length buf = ((nh + 1) / 2)%nat -> length outs = length rem ->
  exists buf' rem' outs',
    hashRun m (concat (map (fun t => replicate ((nh + 1) / 2 + nh) t) order))
      (mkHashState buf (map (fun l => concat (map (itemOps aes ro seed nh) l)) rem) outs) =
    mkHashState buf' (map (fun l => concat (map (itemOps aes ro seed nh) l)) rem') outs' /\ length rem' = length rem /\ length outs' = length rem /\
    forall t l o, rem !! t = Some l -> outs !! t = Some o -> exists l' o', rem' !! t = Some l' /\ outs' !! t = Some o' /\
      o' ++ concat (map (filterPos aes ro seed m nh) l') = o ++ concat (map (filterPos aes ro seed m nh) l).
Proof.
  induction order as [|t order IH]; intros buf rem outs L LO; cbn [map concat].
  - exists buf, rem, outs. split; [done|]. split; [done|]. split; [done|]. intros t l o Hl Ho. eauto.
  - unfold hashRun. rewrite foldl_app. fold (hashRun m (replicate ((nh + 1) / 2 + nh) t) (mkHashState buf (map (fun l => concat (map (itemOps aes ro seed nh) l)) rem) outs)).
    set (f := fun l => concat (map (itemOps aes ro seed nh) l)).
    destruct (rem !! t) as [[|x l]|] eqn:E.
    + rewrite hashRun_idle by (left; cbn [hsOps]; rewrite (list_lookup_fmap f), E; done). apply IH; done.
    + destruct (lookup_lt_is_Some_2 outs t) as [o Ho]; [apply lookup_lt_Some in E; lia|].
      rewrite <- (itemOps_length aes ro seed nh x).
      rewrite (hashRun_alone m t (itemOps aes ro seed nh x) (f l) buf (map f rem) outs o); [|rewrite (list_lookup_fmap f), E; done|done].
      destruct (execOps_item aes ro seed m nh x buf o L) as (b1 & L1 & ->). cbn [fst snd].
      rewrite <- (list_fmap_insert f rem t l : f <$> <[t := l]> rem = <[t := f l]> (map f rem)).
      destruct (IH b1 (<[t := l]> rem) (<[t := o ++ filterPos aes ro seed m nh x]> outs) L1) as (b2 & rem' & outs' & E2 & LR & LO' & K); [by rewrite !insert_length|].
      rewrite !insert_length in *. exists b2, rem', outs'. rewrite itemOps_length. split; [exact E2|]. split; [done|]. split; [done|].
      intros t' l' o' Hl' Ho'. destruct (decide (t' = t)) as [->|NE].
      * rewrite E in Hl'. injection Hl' as <-. rewrite Ho in Ho'. injection Ho' as <-.
        destruct (K t l (o ++ filterPos aes ro seed m nh x)) as (l2 & o2 & Hl2 & Ho2 & EQ);
          [apply list_lookup_insert; by eapply lookup_lt_Some|apply list_lookup_insert; by eapply lookup_lt_Some|].
        exists l2, o2. split; [done|]. split; [done|]. rewrite EQ. cbn [map concat]. by rewrite <- app_assoc.
      * apply K; by rewrite list_lookup_insert_ne.
    + rewrite hashRun_idle by (right; cbn [hsOps]; rewrite (list_lookup_fmap f), E; done). apply IH; done.
Qed.

Lemma concat_nil_inv {A} (l : list (list A)) : concat l = [] -> forall x, x ∈ l -> x = [].
Proof.
  induction l as [|a l IH]; intros E x Hx; [by apply elem_of_nil in Hx|]. cbn in E. apply app_eq_nil in E as [-> E].
  apply elem_of_cons in Hx as [->|Hx]; [done|by apply IH].
Qed.

(** When all items are done the outputs are the items' positions. *)
Lemma hash_atomic_done aes ro seed m nh order buf inputs s : length buf = ((nh + 1) / 2)%nat ->
  hashRun m (concat (map (fun t => replicate ((nh + 1) / 2 + nh) t) order)) (hashStart aes ro seed nh buf inputs) = s ->
  (forall ops, ops ∈ hsOps s -> ops = []) ->
  hsOut s = map (fun l => concat (map (filterPos aes ro seed m nh) l)) inputs.
Proof.
  intros L E D. unfold hashStart in E.
  destruct (hash_atomic aes ro seed m nh order buf inputs (map (fun _ => []) inputs) L) as (b' & rem' & outs' & E' & LR & LO & K); [by rewrite map_length|].
  rewrite E' in E. subst s. cbn [hsOps hsOut] in *. apply list_eq. intros t.
  rewrite (list_lookup_fmap (fun l => concat (map (filterPos aes ro seed m nh) l))).
  destruct (inputs !! t) as [l|] eqn:El; [|cbn; apply lookup_ge_None_2; apply lookup_ge_None_1 in El; lia].
  destruct (K t l []) as (l' & o' & Hl' & Ho' & EQ); [done|by rewrite (list_lookup_fmap (fun _ => [])), El|]. rewrite Ho'. cbn. f_equal.
  etrans; [|exact EQ]. assert (concat (map (filterPos aes ro seed m nh) l') = []) as ->; [|by rewrite app_nil_r].
  assert (concat (map (itemOps aes ro seed nh) l') = []) as HZ.
  { apply D. apply elem_of_list_fmap. exists l'. split; [done|]. by eapply elem_of_list_lookup_2. }
  destruct l' as [|x l']; [done|]. cbn [map concat] in HZ. apply app_eq_nil in HZ as [HZ _].
  apply (f_equal length) in HZ. rewrite itemOps_length in HZ. cbn in HZ. assert (nh = 0%nat) as -> by lia.
  clear. cbn [map concat]. unfold filterPos at 1. cbn [seq map app]. induction l' as [|y l' IH]; [done|]. cbn [map concat]. unfold filterPos at 1. cbn [seq map app]. exact IH.
Qed.

(** One thread: any schedule. *)
Lemma hash_single_prefix m sched buf ops out : exists k b o,
  execOps m (take k ops) buf out = (b, o) /\ hashRun m sched (mkHashState buf [ops] [out]) = mkHashState b [drop k ops] [o].
Proof.
  unfold hashRun. revert buf ops out. induction sched as [|t sched IH]; intros buf ops out; cbn [foldl].
  - exists 0%nat, buf, out. done.
  - destruct t as [|t].
    + destruct ops as [|[c v|j] ops].
      * destruct (IH buf [] out) as (k & b & o & E1 & E2). exists 0%nat, b, o. rewrite take_nil in E1. split; [done|]. rewrite drop_nil in E2. exact E2.
      * destruct (IH (<[c := v]> buf) ops out) as (k & b & o & E1 & E2). exists (S k), b, o. split; [exact E1|exact E2].
      * destruct (IH buf ops (out ++ [bufWord buf j mod m])) as (k & b & o & E1 & E2). exists (S k), b, o. split; [exact E1|exact E2].
    + assert (hashStep m (S t) (mkHashState buf [ops] [out]) = mkHashState buf [ops] [out]) as -> by (unfold hashStep; by destruct t). apply IH.
Qed.

Lemma hash_single aes ro seed m nh sched buf items s : length buf = ((nh + 1) / 2)%nat ->
  hashRun m sched (hashStart aes ro seed nh buf [items]) = s -> (forall ops, ops ∈ hsOps s -> ops = []) ->
  hsOut s = [concat (map (filterPos aes ro seed m nh) items)].
Proof.
  intros L E D. unfold hashStart in E. cbn [map] in E.
  destruct (hash_single_prefix m sched buf (concat (map (itemOps aes ro seed nh) items)) []) as (k & b & o & E1 & E2). rewrite E2 in E. subst s.
  cbn [hsOps hsOut] in *. assert (drop k (concat (map (itemOps aes ro seed nh) items)) = []) as HD by (apply D; by left).
  rewrite <- (take_drop k (concat (map (itemOps aes ro seed nh) items))) in E1. rewrite HD, app_nil_r in E1.
  assert (take k (concat (map (itemOps aes ro seed nh) items)) = concat (map (itemOps aes ro seed nh) items)) as HT.
  { rewrite <- (take_drop k (concat (map (itemOps aes ro seed nh) items))) at 2. by rewrite HD, app_nil_r. }
  rewrite take_take, Nat.min_id, HT in E1.
  destruct (execOps_items aes ro seed m nh items buf [] L) as (b' & _ & E'). rewrite E' in E1. injection E1 as _ <-. done.
Qed.

(** ** Parameters *)

Lemma aknTable_ok : Forall (fun r : N * (N * N * N * N * N) => let '(n, (total, ones, thr, h, bf)) := r in
   total <= 2 ^ 32 /\ n * h + thr <= ones /\ ones <= total /\ bf <= total /\ n * h <= bf) aknTable.
Proof. repeat constructor; done. Qed.
