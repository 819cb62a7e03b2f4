(** Proofs about the balanced allocation. *)
From Verif Require Import Base Balanced_Model Balanced_Spec.

Definition keys (vs : list (nat * list bitem)) : list nat := map fst vs.
Definition vItems (vs : list (nat * list bitem)) : list bitem := concat (map snd vs).
Definition inVal (vs : list (nat * list bitem)) (k : nat) (it : bitem) : Prop := exists l, (k, l) ∈ vs /\ it ∈ l.

Lemma inVal_nil k it : ~ inVal [] k it.
Proof. intros (l & H & _). by apply elem_of_nil in H. Qed.
Lemma inVal_cons k' l vs k it : inVal ((k', l) :: vs) k it <-> (k = k' /\ it ∈ l) \/ inVal vs k it.
Proof.
  unfold inVal. split.
  - intros (l' & H & Hi). apply elem_of_cons in H as [H|H]; [injection H as -> ->; by left|right; by exists l'].
  - intros [[-> H]|(l' & H & Hi)]; [exists l; split; [left|done]|exists l'; split; [by right|done]].
Qed.
Lemma inVal_items vs k it : inVal vs k it -> it ∈ vItems vs.
Proof.
  intros (l & H & Hi). unfold vItems. apply elem_of_list_In, in_concat. exists l. split; [|by apply elem_of_list_In].
  apply in_map_iff. exists (k, l). split; [done|]. by apply elem_of_list_In.
Qed.
Lemma items_inVal vs it : it ∈ vItems vs -> exists k, inVal vs k it.
Proof.
  unfold vItems. intros H. apply elem_of_list_In, in_concat in H as (l & Hl & Hi). apply in_map_iff in Hl as ([k l'] & <- & Hl).
  exists k, l'. split; by apply elem_of_list_In.
Qed.

Lemma addVal_items k it vs : vItems (addVal k it vs) ≡ₚ it :: vItems vs.
Proof.
  induction vs as [|[k' l] vs IH]; [done|]. cbn [addVal]. destruct (k' =? k)%nat; unfold vItems in *; cbn [map concat snd].
  - rewrite <- app_assoc. cbn. symmetry. apply Permutation_middle.
  - rewrite IH. symmetry. apply Permutation_middle.
Qed.
Lemma addVal_in k it vs k' it' : inVal (addVal k it vs) k' it' <-> inVal vs k' it' \/ (k' = k /\ it' = it).
Proof.
  induction vs as [|[k1 l] vs IH]; cbn [addVal].
  - rewrite inVal_cons, elem_of_list_singleton. pose proof (inVal_nil k' it'). tauto.
  - destruct (k1 =? k)%nat eqn:E.
    + apply Nat.eqb_eq in E as ->. rewrite !inVal_cons, elem_of_app, elem_of_list_singleton. tauto.
    + rewrite !inVal_cons, IH. tauto.
Qed.
Lemma addVal_keys k it vs k' : k' ∈ keys (addVal k it vs) <-> k' ∈ keys vs \/ k' = k.
Proof.
  induction vs as [|[k1 l] vs IH]; cbn [addVal].
  - cbn. rewrite elem_of_list_singleton, elem_of_nil. tauto.
  - destruct (k1 =? k)%nat eqn:E; unfold keys in *; cbn [map fst].
    + apply Nat.eqb_eq in E as ->. rewrite elem_of_cons. tauto.
    + rewrite !elem_of_cons, IH. tauto.
Qed.
Lemma addVal_nodup k it vs : NoDup (keys vs) -> NoDup (keys (addVal k it vs)).
Proof.
  induction vs as [|[k1 l] vs IH]; intros ND; cbn [addVal].
  - cbn. apply NoDup_singleton.
  - apply NoDup_cons in ND as [Hn ND]. destruct (k1 =? k)%nat eqn:E; unfold keys in *; cbn [map fst].
    + by apply NoDup_cons.
    + apply NoDup_cons. split; [|by apply IH]. intros H. apply (addVal_keys k it vs k1) in H as [H|H]; [done|]. apply Nat.eqb_neq in E. done.
Qed.

Lemma findVal_Some k vs l : findVal k vs = Some l -> (k, l) ∈ vs.
Proof.
  induction vs as [|[k' l'] vs IH]; [done|]. cbn [findVal]. destruct (k' =? k)%nat eqn:E.
  - intros H. injection H as ->. apply Nat.eqb_eq in E as ->. left.
  - intros H. right. by apply IH.
Qed.
Lemma findVal_key k vs : k ∈ keys vs -> exists l, findVal k vs = Some l.
Proof.
  induction vs as [|[k' l'] vs IH]; intros H; [by apply elem_of_nil in H|]. cbn [findVal]. destruct (k' =? k)%nat eqn:E; [by exists l'|].
  apply elem_of_cons in H as [H|H]; [apply Nat.eqb_neq in E; cbn in H; done|by apply IH].
Qed.
Lemma setVal_keys k l vs : keys (setVal k l vs) = keys vs.
Proof. induction vs as [|[k' l'] vs IH]; [done|]. cbn [setVal]. destruct (k' =? k)%nat; unfold keys in *; cbn; [done|by rewrite IH]. Qed.
Lemma setVal_in k l sub vs k' it' : findVal k vs = Some sub -> l ⊆ sub -> inVal (setVal k l vs) k' it' -> inVal vs k' it'.
Proof.
  intros Hf Hl. induction vs as [|[k1 l1] vs IH]; [done|]. cbn [setVal findVal] in *. destruct (k1 =? k)%nat eqn:E.
  - injection Hf as ->. rewrite !inVal_cons. intros [[-> H]|H]; [left; split; [done|by apply Hl]|by right].
  - rewrite !inVal_cons. intros [H|H]; [by left|right; by apply IH].
Qed.
Lemma eraseAt_perm {A} i (l : list A) x : l !! i = Some x -> l ≡ₚ x :: eraseAt i l.
Proof. intros H. unfold eraseAt. rewrite <- (take_drop_middle l i x H) at 1. symmetry. apply Permutation_middle. Qed.
Lemma eraseAt_sub {A} i (l : list A) : eraseAt i l ⊆ l.
Proof.
  intros x H. unfold eraseAt in H. apply elem_of_app in H as [H|H].
  - by eapply elem_of_take in H as (j & H & _); eapply elem_of_list_lookup_2.
  - apply elem_of_list_lookup in H as [j H]. rewrite lookup_drop in H. by eapply elem_of_list_lookup_2.
Qed.
Lemma setVal_items k l sub it vs : findVal k vs = Some sub -> sub ≡ₚ it :: l -> vItems vs ≡ₚ it :: vItems (setVal k l vs).
Proof.
  intros Hf Hs. induction vs as [|[k1 l1] vs IH]; [done|]. cbn [setVal findVal] in *. unfold vItems in *. destruct (k1 =? k)%nat; cbn [map concat snd].
  - injection Hf as ->. rewrite Hs. done.
  - rewrite (IH Hf). symmetry. apply Permutation_middle.
Qed.

Lemma eraseFirst_ne b x l : x ≠ b -> x ∈ l -> x ∈ eraseFirst b l.
Proof.
  intros Hn. induction l as [|y l IH]; intros H; [by apply elem_of_nil in H|]. cbn [eraseFirst]. destruct (y =? b)%nat eqn:E.
  - apply elem_of_cons in H as [H|H]; [apply Nat.eqb_eq in E; congruence|done].
  - apply elem_of_cons in H as [->|H]; [left|right; by apply IH].
Qed.
Lemma eraseFirst_sub b x l : x ∈ eraseFirst b l -> x ∈ l.
Proof.
  induction l as [|y l IH]; intros H; [done|]. cbn [eraseFirst] in H. destruct (y =? b)%nat; [by right|]. apply elem_of_cons in H as [->|H]; [left|right; by apply IH].
Qed.

(** ** The invariant *)

Section alloc.
Variable (m n : nat) (R : nat -> nat -> bitem -> Prop).
(** One bin: counter, map, light bins. *)
Definition binOK (b : nat) (B : bbin) : Prop :=
  NoDup (keys (bVals B)) /\ bCnt B = N.of_nat (length (vItems (bVals B))) /\ (forall k, k ∈ keys (bVals B) -> (k < m)%nat) /\
  (forall k it, inVal (bVals B) k it -> R b k it) /\ forall k, k ∈ bLight B -> k ∈ keys (bVals B).
Definition stored (bins : list bbin) : list bitem := concat (map (fun B => vItems (bVals B)) bins).
Definition binsOK (bins : list bbin) : Prop := length bins = m /\ forall b B, bins !! b = Some B -> binOK b B.

Lemma stored_insert (bins : list bbin) b B B' it : bins !! b = Some B -> vItems (bVals B') ≡ₚ it :: vItems (bVals B) ->
  stored (<[b := B']> bins) ≡ₚ it :: stored bins.
Proof.
  intros Hb HP. unfold stored. rewrite <- (take_drop_middle bins b B Hb) at 2. rewrite insert_take_drop by (by eapply lookup_lt_Some).
  rewrite !map_app, !concat_app. cbn [map concat]. rewrite HP. symmetry. apply Permutation_middle.
Qed.
Lemma insert_OK bins b B' : binsOK bins -> binOK b B' -> binsOK (<[b := B']> bins).
Proof.
  intros [L H] HB. split; [by rewrite insert_length|]. intros b' B0 H0. destruct (decide (b' = b)) as [->|Hne].
  - rewrite list_lookup_insert in H0 by (apply lookup_lt_Some in H0; by rewrite insert_length in H0). by injection H0 as <-.
  - rewrite list_lookup_insert_ne in H0 by done. by apply H.
Qed.
Lemma binOK_add b B k it light : binOK b B -> (k < m)%nat -> R b k it -> (forall x, x ∈ light -> x ∈ bLight B \/ x = k) ->
  binOK b (mkBBin (addVal k it (bVals B)) light (bCnt B + 1)).
Proof.
  intros (ND & Hc & Hk & HR & HL) Hkm Hr Hl. split_and!; cbn [bVals bCnt bLight].
  - by apply addVal_nodup.
  - rewrite addVal_items. cbn [length]. lia.
  - intros k' H. apply addVal_keys in H as [H| ->]; [by apply Hk|done].
  - intros k' it' H. apply addVal_in in H as [H|[-> ->]]; [by apply HR|done].
  - intros k' H. apply addVal_keys. apply Hl in H as [H| ->]; [left; by apply HL|by right].
Qed.
Lemma binOK_del b B k j sub it light : binOK b B -> findVal k (bVals B) = Some sub -> sub !! j = Some it -> (forall x, x ∈ light -> x ∈ bLight B) ->
  binOK b (mkBBin (setVal k (eraseAt j sub) (bVals B)) light (bCnt B - 1)).
Proof.
  intros (ND & Hc & Hk & HR & HL) Hf Hj Hl. pose proof (setVal_items k _ sub it _ Hf (eraseAt_perm j sub it Hj)) as HP.
  split_and!; cbn [bVals bCnt bLight].
  - by rewrite setVal_keys.
  - rewrite Hc, HP. cbn [length]. lia.
  - intros k'. rewrite setVal_keys. apply Hk.
  - intros k' it' H. apply HR. apply (setVal_in k _ sub _ _ _ Hf (eraseAt_sub j sub) H).
  - intros k' H. rewrite setVal_keys. apply HL, Hl, H.
Qed.
End alloc.

(** Placement by a hash function: number and bin agree. *)
Definition fresh (cands : list (nat * nat)) (b k : nat) (it : bitem) : Prop :=
  (it.1 = 0 /\ cands !! it.2 = Some (b, k)) \/ (it.1 = 1 /\ cands !! it.2 = Some (k, b)).
(** One of the two bins. *)
Definition loose (cands : list (nat * nat)) (b k : nat) (it : bitem) : Prop :=
  cands !! it.2 = Some (b, k) \/ cands !! it.2 = Some (k, b).

Lemma firstPass_ok m all cands : forall done bins, all = done ++ cands -> Forall (fun c : nat * nat => (c.1 < m)%nat /\ (c.2 < m)%nat) cands ->
  binsOK m (fresh all) bins -> map snd (stored bins) ≡ₚ seq 0 (length done) ->
  exists bins', firstPass cands (length done) bins = Some bins' /\ binsOK m (fresh all) bins' /\ map snd (stored bins') ≡ₚ seq 0 (length all).
Proof.
  induction cands as [|[b1 b2] cands IH]; intros dn bins -> HF HB HS.
  - rewrite app_nil_r in *. by exists bins.
  - apply Forall_cons in HF as [[H1 H2] HF]. cbn [fst snd] in *. cbn [firstPass]. unfold place. destruct HB as [L HB].
    destruct (lookup_lt_is_Some_2 bins b1 ltac:(lia)) as [B1 E1]. destruct (lookup_lt_is_Some_2 bins b2 ltac:(lia)) as [B2 E2]. rewrite E1, E2.
    assert ((dn ++ (b1, b2) :: cands) !! length dn = Some (b1, b2)) as Ec by (rewrite lookup_app_r, Nat.sub_diag; done).
    assert (forall bins', binsOK m (fresh (dn ++ (b1, b2) :: cands)) bins' -> map snd (stored bins') ≡ₚ length dn :: seq 0 (length dn) ->
      exists bins'', firstPass cands (S (length dn)) bins' = Some bins'' /\ binsOK m (fresh (dn ++ (b1, b2) :: cands)) bins'' /\
        map snd (stored bins'') ≡ₚ seq 0 (length (dn ++ (b1, b2) :: cands))) as G.
    { intros bins' HB' HS'. replace (S (length dn)) with (length (dn ++ [(b1, b2)])) by (rewrite app_length; cbn; lia). apply IH; [by rewrite <- app_assoc|done|done|].
      rewrite HS', app_length. cbn [length]. rewrite Nat.add_1_r, seq_S. symmetry. rewrite Nat.add_0_l. apply Permutation_app_comm. }
    destruct (bCnt B1 <? bCnt B2).
    + apply G.
      * apply insert_OK; [done|]. apply binOK_add; [by apply HB|done|left; done|by left].
      * rewrite (stored_insert bins b1 B1 _ (0, length dn) E1); [cbn [map snd]; by rewrite HS|]. cbn [bVals]. apply addVal_items.
    + apply G.
      * apply insert_OK; [done|]. apply binOK_add; [by apply HB|done|right; done|by left].
      * rewrite (stored_insert bins b2 B2 _ (1, length dn) E2); [cbn [map snd]; by rewrite HS|]. cbn [bVals]. apply addVal_items.
Qed.

Lemma scanLight_lookup ord maxBin bins b B' : scanLight ord maxBin bins !! b = Some B' <->
  exists B, bins !! b = Some B /\
    B' = mkBBin (bVals B) (bLight B ++ filter (fun k => cntOf bins k < maxBin) (ord b (map fst (bVals B)))) (bCnt B).
Proof.
  unfold scanLight. rewrite list_lookup_imap. destruct (bins !! b) as [B|]; cbn; split.
  - intros H. injection H as <-. by exists B.
  - intros (B0 & H & ->). by injection H as <-.
  - done.
  - intros (B0 & H & _). done.
Qed.
Lemma scanLight_ok m R ord maxBin bins : anyOrder ord -> binsOK m R bins -> binsOK m R (scanLight ord maxBin bins).
Proof.
  intros HO [L H]. split; [unfold scanLight; by rewrite imap_length|]. intros b B' HB'. apply scanLight_lookup in HB' as (B & HB & ->).
  destruct (H b B HB) as (ND & Hc & Hk & HR & HL). split_and!; cbn [bVals bCnt bLight]; try done.
  intros k Hk'. apply elem_of_app in Hk' as [Hk'|Hk']; [by apply HL|]. apply elem_of_list_filter in Hk' as [_ Hk']. rewrite (HO b _) in Hk'. exact Hk'.
Qed.
Lemma scanLight_stored ord maxBin bins : stored (scanLight ord maxBin bins) = stored bins.
Proof.
  unfold stored, scanLight. f_equal. apply list_eq. intros b. change (map ?f ?l) with (f <$> l). rewrite !list_lookup_fmap, list_lookup_imap.
  by destruct (bins !! b).
Qed.
Lemma scanHeavy_spec maxBin bins b B : bins !! b = Some B -> maxBin < bCnt B -> b ∈ scanHeavy maxBin bins.
Proof.
  intros HB HC. unfold scanHeavy. apply elem_of_list_filter. split; [unfold cntOf; by rewrite HB|]. apply elem_of_seq. apply lookup_lt_Some in HB. lia.
Qed.

(** ** The balancing loop *)

Section loop.
Variable (m : nat) (cands : list (nat * nat)) (maxBin : N).
Definition loopInv (bins : list bbin) (heavy : list nat) : Prop :=
  binsOK m (loose cands) bins /\ map snd (stored bins) ≡ₚ seq 0 (length cands) /\ (forall b, b ∈ heavy -> (b < m)%nat) /\
  forall b B, bins !! b = Some B -> maxBin < bCnt B -> b ∈ heavy.

Lemma draw_lt k rs j rs' : (0 < k)%nat -> draw k rs = Some (j, rs') -> (j < k)%nat.
Proof. intros Hk. unfold draw. destruct rs as [|r rs0]; [done|]. intros H. injection H as <- _. pose proof (N.mod_lt r (N.of_nat k) ltac:(lia)) as L. lia. Qed.

Lemma moveItem_ok bins heavy b1 b2 i2 j sub it B1 B2 : loopInv bins heavy -> bins !! b1 = Some B1 -> bins !! b2 = Some B2 -> b1 ≠ b2 ->
  findVal b2 (bVals B1) = Some sub -> sub !! j = Some it -> bLight B1 !! i2 = Some b2 ->
  exists bins' heavy', moveItem maxBin b1 b2 i2 j sub it bins heavy = Some (bins', heavy') /\ loopInv bins' heavy'.
Proof.
  intros (HB & HS & HH & HV) E1 E2 Hne Hf Hj Hi. unfold moveItem. rewrite E1, E2. cbv zeta. eexists _, _. split; [reflexivity|].
  set (c1 := bCnt B1 - 1). set (c2 := bCnt B2 + 1). set (over := maxBin <? c2). set (heavy1 := if c1 <? maxBin then eraseFirst b1 heavy else heavy).
  set (B1' := mkBBin (setVal b2 (eraseAt j sub) (bVals B1)) (if over then eraseAt i2 (bLight B1) else bLight B1) c1).
  set (light2 := match findVal b1 (bVals B2) with Some _ => if c1 <? maxBin then bLight B2 ++ [b1] else bLight B2 | None => bLight B2 ++ [b1] end).
  set (B2' := mkBBin (addVal b1 it (bVals B2)) light2 c2).
  assert (binOK m (loose cands) b1 B1') as O1.
  { apply (binOK_del m (loose cands) b1 B1 b2 j sub it); [by apply HB|done|done|]. intros x Hx. destruct over; [|done]. by apply (eraseAt_sub i2). }
  assert (length bins = m) as Lm by (by destruct HB). assert (b1 < m)%nat as L1 by (rewrite <- Lm; by eapply lookup_lt_Some).
  assert (b2 < m)%nat as L2 by (rewrite <- Lm; by eapply lookup_lt_Some).
  assert (binOK m (loose cands) b2 B2') as O2.
  { apply (binOK_add m (loose cands) b2 B2 b1 it); [by apply HB|done| |].
    - destruct HB as [_ HB]. destruct (HB b1 B1 E1) as (_ & _ & _ & HR & _). specialize (HR b2 it). apply findVal_Some in Hf.
      destruct HR as [HR|HR]; [exists sub; split; [done|by eapply elem_of_list_lookup_2]| |]; [by right|by left].
    - intros x. subst light2. destruct (findVal b1 (bVals B2)); [destruct (c1 <? maxBin)|]; rewrite ?elem_of_app, ?elem_of_list_singleton; tauto. }
  assert (<[b1:=B1']> bins !! b2 = Some B2) as E2' by (by rewrite list_lookup_insert_ne).
  split; [by apply insert_OK; [apply insert_OK|]|]. split; [|split].
  - rewrite (stored_insert _ b2 B2 B2' it E2') by (cbn [bVals B2']; apply addVal_items). rewrite <- HS. apply Permutation_map. symmetry.
    assert (<[b1 := B1]> (<[b1 := B1']> bins) = bins) as Eb by (rewrite list_insert_insert; by apply list_insert_id). rewrite <- Eb at 1.
    apply (stored_insert _ b1 B1' B1 it); [apply list_lookup_insert; lia|]. cbn [bVals B1']. apply (setVal_items b2 _ sub it _ Hf). by apply eraseAt_perm.
  - intros b Hb. assert (b ∈ heavy \/ b = b2) as [Hb'| ->]; [|by apply HH|done]. subst heavy1.
    assert (b ∈ (if c1 <? maxBin then eraseFirst b1 heavy else heavy) -> b ∈ heavy) as G by (destruct (c1 <? maxBin); [apply eraseFirst_sub|done]).
    destruct over; [apply elem_of_app in Hb as [Hb|Hb]; [by left; apply G|right; by apply elem_of_list_singleton in Hb]|by left; apply G].
  - intros b B HB' HC. destruct (decide (b = b2)) as [->|N2].
    + rewrite list_lookup_insert in HB' by (rewrite insert_length; lia). injection HB' as <-. cbn [bCnt B2'] in HC. subst over.
      apply N.ltb_lt in HC. rewrite HC. apply elem_of_app. right. by apply elem_of_list_singleton.
    + rewrite list_lookup_insert_ne in HB' by done. assert (b ∈ heavy1) as G.
      { destruct (decide (b = b1)) as [->|N1].
        - rewrite list_lookup_insert in HB' by lia. injection HB' as <-. cbn [bCnt B1'] in HC. subst heavy1.
          assert (c1 <? maxBin = false) as -> by (apply N.ltb_ge; lia). apply (HV b1 B1 E1). subst c1. lia.
        - rewrite list_lookup_insert_ne in HB' by done. specialize (HV b B HB' HC). subst heavy1. destruct (c1 <? maxBin); [by apply eraseFirst_ne|done]. }
      destruct over; [apply elem_of_app; by left|done].
Qed.

Lemma balanceStep_ok bins heavy rs : heavy ≠ [] -> loopInv bins heavy ->
  balanceStep maxBin bins heavy rs = OutOfFuel \/
  exists bins' heavy' rs', balanceStep maxBin bins heavy rs = Done (bins', heavy', rs') /\ loopInv bins' heavy' /\ (length rs' < length rs)%nat.
Proof.
  intros Hne HI. pose proof HI as (HB & HS & HH & HV). pose proof HB as [L HO]. unfold balanceStep.
  assert (forall k rs j rs', draw k rs = Some (j, rs') -> length rs = S (length rs')) as DL.
  { intros k rs0 j rs'. unfold draw. destruct rs0; [done|]. intros H. by injection H as _ <-. }
  destruct (draw (length heavy) rs) as [[h rs1]|] eqn:D1; [|by left]. pose proof (DL _ _ _ _ D1) as DL1. apply draw_lt in D1; [|by destruct heavy; [|cbn; lia]].
  destruct (lookup_lt_is_Some_2 heavy h D1) as [b1 Hb1]. rewrite Hb1. apply elem_of_list_lookup_2 in Hb1. pose proof (HH b1 Hb1) as L1.
  destruct (lookup_lt_is_Some_2 bins b1 ltac:(lia)) as [B1 E1]. rewrite E1. destruct (bLight B1) as [|x lt] eqn:El.
  { right. eexists _, _, _. split; [done|]. split; [done|lia]. }
  rewrite <- El. destruct (draw (length (bLight B1)) rs1) as [[i2 rs2]|] eqn:D2; [|by left]. pose proof (DL _ _ _ _ D2) as DL2. apply draw_lt in D2; [|rewrite El; cbn; lia].
  destruct (lookup_lt_is_Some_2 (bLight B1) i2 D2) as [b2 Hb2]. rewrite Hb2.
  destruct (HO b1 B1 E1) as (ND & Hc & Hk & HR & HL). pose proof (HL b2 ltac:(by eapply elem_of_list_lookup_2)) as Hkey. pose proof (Hk b2 Hkey) as L2.
  destruct (lookup_lt_is_Some_2 bins b2 ltac:(lia)) as [B2 E2]. rewrite E2. destruct (bCnt B2 <? bCnt B1) eqn:Ec.
  2: { right. eexists _, _, _. split; [done|]. split; [done|lia]. }
  destruct (draw 2 rs2) as [[rB rs3]|] eqn:D3; [|by left]. pose proof (DL _ _ _ _ D3) as DL3.
  destruct ((rB =? 1)%nat || negb (bCnt B2 + 1 =? bCnt B1)).
  2: { right. eexists _, _, _. split; [done|]. split; [done|lia]. }
  destruct (findVal_key b2 (bVals B1) Hkey) as [sub Hsub]. rewrite Hsub. destruct sub as [|y sub'] eqn:Es.
  { right. eexists _, _, _. split; [done|]. split; [done|lia]. }
  rewrite <- Es in *. destruct (draw (length sub) rs3) as [[j rs4]|] eqn:D4; [|by left]. pose proof (DL _ _ _ _ D4) as DL4. apply draw_lt in D4; [|rewrite Es; cbn; lia].
  destruct (lookup_lt_is_Some_2 sub j D4) as [it Hit]. rewrite Hit.
  assert (b1 ≠ b2) as Hd. { intros ->. rewrite E1 in E2. injection E2 as ->. rewrite N.ltb_irrefl in Ec. done. }
  destruct (moveItem_ok bins heavy b1 b2 i2 j sub it B1 B2 HI E1 E2 Hd Hsub Hit Hb2) as (bins' & heavy' & -> & HI').
  right. eexists _, _, _. split; [done|]. split; [done|lia].
Qed.

Lemma balance_ok fuel : forall bins heavy rs, loopInv bins heavy ->
  balance fuel maxBin bins heavy rs = OutOfFuel \/ exists bins', balance fuel maxBin bins heavy rs = Done bins' /\ loopInv bins' [].
Proof.
  induction fuel as [|fuel IH]; intros bins heavy rs HI; cbn [balance]; (destruct heavy as [|h heavy]; [right; by exists bins|]); [by left|].
  destruct (balanceStep_ok bins (h :: heavy) rs ltac:(done) HI) as [->|(bins' & heavy' & rs' & -> & HI' & _)]; [by left|]. by apply IH.
Qed.
End loop.

(** ** The output *)

Lemma findVal_first k l vs : findVal k ((k, l) :: vs) = Some l.
Proof. cbn. by rewrite Nat.eqb_refl. Qed.
Lemma out_items vs : NoDup (keys vs) -> map (fun k => default [] (findVal k vs)) (keys vs) = map snd vs.
Proof.
  induction vs as [|[k l] vs IH]; intros ND; [done|]. apply NoDup_cons in ND as [Hn ND]. cbn [keys map fst snd]. rewrite findVal_first. cbn. f_equal.
  rewrite <- IH by done. apply map_ext_in. intros k' Hk'. destruct (Nat.eqb_spec k k') as [->|_]; [|done]. exfalso. apply Hn. by apply elem_of_list_In.
Qed.
Lemma binOut_perm ord b B : anyOrder ord -> NoDup (keys (bVals B)) -> binOut ord b B ≡ₚ vItems (bVals B).
Proof.
  intros HO ND. unfold binOut, vItems. rewrite (HO b (map fst (bVals B))). change (map fst (bVals B)) with (keys (bVals B)). by rewrite out_items.
Qed.
Lemma concat_perm {A} (l l' : list (list A)) : Forall2 (≡ₚ) l l' -> concat l ≡ₚ concat l'.
Proof. induction 1 as [|x y l l' H _ IH]; [done|]. cbn. by rewrite H, IH. Qed.
Lemma out_stored m R ord bins : anyOrder ord -> binsOK m R bins -> concat (imap (binOut ord) bins) ≡ₚ stored bins.
Proof.
  intros HO [L H]. unfold stored. apply concat_perm. apply Forall2_same_length_lookup. split; [by rewrite imap_length, map_length|].
  intros b x y Hx Hy. rewrite list_lookup_imap in Hx. change (map ?f ?l) with (f <$> l) in Hy. rewrite list_lookup_fmap in Hy.
  destruct (bins !! b) as [B|] eqn:E; [|done]. cbn in Hx, Hy. injection Hx as <-. injection Hy as <-. apply binOut_perm; [done|]. by destruct (H b B E).
Qed.

(** ** Complete runs *)

Lemma newBins_ok m R : binsOK m R (newBins m).
Proof.
  split; [apply replicate_length|]. intros b B H. apply lookup_replicate in H as [-> _]. split; [apply NoDup_nil_2|]. split; [done|]. split; [|split].
  - intros k H. by apply elem_of_nil in H.
  - intros k it H. by apply inVal_nil in H.
  - intros k H. by apply elem_of_nil in H.
Qed.
Lemma newBins_stored m : stored (newBins m) = [].
Proof. unfold stored, newBins. induction m as [|m IH]; [done|]. cbn. exact IH. Qed.

Lemma fresh_loose cands b k it : fresh cands b k it -> loose cands b k it.
Proof. unfold fresh, loose. tauto. Qed.
Lemma binsOK_mono m (R R' : nat -> nat -> bitem -> Prop) bins : (forall b k it, R b k it -> R' b k it) -> binsOK m R bins -> binsOK m R' bins.
Proof. intros HR [L H]. split; [done|]. intros b B HB. destruct (H b B HB) as (ND & Hc & Hk & Hr & HL). split_and!; try done. intros k it Hi. by apply HR, Hr. Qed.

Section run.
Variable (ord : nat -> list nat -> list nat) (m : nat) (maxBin : N) (cands : list (nat * nat)).
Hypothesis HO : anyOrder ord.
Hypothesis HF : Forall (fun c : nat * nat => (c.1 < m)%nat /\ (c.2 < m)%nat) cands.

Lemma start_ok : exists bins, firstPass cands 0 (newBins m) = Some bins /\ binsOK m (fresh cands) bins /\ map snd (stored bins) ≡ₚ seq 0 (length cands).
Proof using HF. apply (firstPass_ok m cands cands [] (newBins m)); [done|done|apply newBins_ok|by rewrite newBins_stored]. Qed.

Lemma scan_inv bins : binsOK m (fresh cands) bins -> map snd (stored bins) ≡ₚ seq 0 (length cands) ->
  loopInv m cands maxBin (scanLight ord maxBin bins) (scanHeavy maxBin bins).
Proof using HO.
  intros HB HS. split; [apply scanLight_ok; [done|]; eapply binsOK_mono; [|done]; apply fresh_loose|]. split; [by rewrite scanLight_stored|]. split.
  - intros b Hb. unfold scanHeavy in Hb. apply elem_of_list_filter in Hb as [_ Hb]. apply elem_of_seq in Hb. destruct HB as [L _]. lia.
  - intros b B' HB' HC. apply scanLight_lookup in HB' as (B & E & ->). cbn [bCnt] in HC. by eapply scanHeavy_spec.
Qed.

Lemma insert_ok rs : insertItemsFrom ord maxBin cands rs (newBins m) = OutOfFuel \/
  exists out, insertItemsFrom ord maxBin cands rs (newBins m) = Done out /\ length out = m /\ Forall (fun l => N.of_nat (length l) <= maxBin) out /\
    map snd (concat out) ≡ₚ seq 0 (length cands) /\ forall b l it, out !! b = Some l -> it ∈ l -> exists k, loose cands b k it.
Proof using HO HF.
  destruct start_ok as (bins & E & HB & HS). unfold insertItemsFrom, insertBins. rewrite E.
  destruct (balance_ok m cands maxBin (S (length rs)) _ _ rs (scan_inv bins HB HS)) as [->|(bins' & -> & HB' & HS' & _ & HV)]; [by left|].
  right. eexists. split; [reflexivity|]. pose proof HB' as [L H]. split; [by rewrite imap_length|].
  assert (forall b l, imap (binOut ord) bins' !! b = Some l -> exists B, bins' !! b = Some B /\ l ≡ₚ vItems (bVals B) /\ binOK m (loose cands) b B) as G.
  { intros b l Hl. rewrite list_lookup_imap in Hl. destruct (bins' !! b) as [B|] eqn:EB; [|done]. cbn in Hl. injection Hl as <-. exists B. split; [done|].
    split; [|by apply H]. apply binOut_perm; [done|]. by destruct (H b B EB). }
  split; [|split].
  - apply Forall_forall. intros l Hl. apply elem_of_list_lookup in Hl as [b Hl]. destruct (G b l Hl) as (B & EB & HP & (_ & Hc & _)).
    destruct (N.le_gt_cases (bCnt B) maxBin) as [Q|Q]; [rewrite HP; lia|]. specialize (HV b B EB Q). by apply elem_of_nil in HV.
  - rewrite (Permutation_map snd (out_stored m (loose cands) ord bins' HO HB')). exact HS'.
  - intros b l it Hl Hi. destruct (G b l Hl) as (B & EB & HP & (_ & _ & _ & HR & _)). rewrite HP in Hi. apply items_inVal in Hi as [k Hk]. exists k. by apply HR.
Qed.

(** Without a bin over the bound after the first pass the loop does nothing. *)
Lemma insert_light rs bins : firstPass cands 0 (newBins m) = Some bins -> scanHeavy maxBin bins = [] ->
  exists out, insertItemsFrom ord maxBin cands rs (newBins m) = Done out /\ length out = m /\
    forall b l it, out !! b = Some l -> it ∈ l -> exists k, fresh cands b k it.
Proof using HO HF.
  intros E EH. destruct start_ok as (bins' & E' & HB & HS). rewrite E in E'. injection E' as <-. unfold insertItemsFrom, insertBins. rewrite E. rewrite EH. cbn [balance].
  eexists. split; [reflexivity|]. pose proof (scanLight_ok m _ ord maxBin bins HO HB) as HB'. pose proof HB' as [L H]. split; [by rewrite imap_length|].
  intros b l it Hl Hi. rewrite list_lookup_imap in Hl. destruct (scanLight ord maxBin bins !! b) as [B|] eqn:EB; [|done]. cbn in Hl. injection Hl as <-.
  destruct (H b B EB) as (ND & _ & _ & HR & _). rewrite (binOut_perm ord b B HO ND) in Hi. apply items_inVal in Hi as [k Hk]. exists k. by apply HR.
Qed.
End run.

Lemma numBinsOf_eq n maxBin dummies : dummies < maxBin -> maxBin < two64 -> numBinsOf n maxBin dummies = Some (binCount n maxBin dummies).
Proof.
  intros H1 H2. unfold numBinsOf, binCount. replace (maxBin + two64 - dummies) with (maxBin - dummies + 1 * two64) by lia.
  rewrite N.mod_add by done. rewrite N.mod_small by lia. destruct (N.eqb_spec (maxBin - dummies) 0); [lia|done].
Qed.
Lemma binsOf_eq enc m x : binsOf enc m x = (N.to_nat (itemBin enc m x 0), N.to_nat (itemBin enc m x 1)).
Proof.
  unfold binsOf, itemBin. f_equal; f_equal.
  - change (2 ^ (64 * 0)) with 1. by rewrite N.div_1_r.
  - by rewrite N.shiftr_div_pow2.
Qed.
Lemma cands_ok enc m items : 0 < m -> Forall (fun c : nat * nat => (c.1 < N.to_nat m)%nat /\ (c.2 < N.to_nat m)%nat) (map (binsOf enc m) items).
Proof.
  intros Hm. apply Forall_forall. intros c Hc. apply elem_of_list_In, in_map_iff in Hc as (x & <- & _). rewrite binsOf_eq. cbn [fst snd]. unfold itemBin.
  split; (apply Nat.compare_lt_iff; rewrite <- N2Nat.inj_compare; apply N.compare_lt_iff; apply N.mod_lt; lia).
Qed.
Lemma cands_lookup enc m items i c : map (binsOf enc m) items !! i = Some c ->
  exists x, items !! i = Some x /\ c = (N.to_nat (itemBin enc m x 0), N.to_nat (itemBin enc m x 1)).
Proof.
  change (map ?f ?l) with (f <$> l). rewrite list_lookup_fmap. destruct (items !! i) as [x|]; [|done]. cbn. intros H. injection H as <-. exists x. split; [done|]. apply binsOf_eq.
Qed.
Lemma binCount_pos n maxBin dummies : 0 < binCount n maxBin dummies.
Proof. unfold binCount. generalize (n / (maxBin - dummies)). intros q. lia. Qed.

Lemma balanced_ok ord enc maxBin dummies items rs : anyOrder ord -> dummies < maxBin -> maxBin < two64 ->
  balanced ord enc maxBin dummies items rs = OutOfFuel \/
  exists out, balanced ord enc maxBin dummies items rs = Done out /\ N.of_nat (length out) = binCount (N.of_nat (length items)) maxBin dummies /\
    Forall (fun l => N.of_nat (length l) <= maxBin) out /\ allPlaced (length items) out /\
    forall b l it, out !! b = Some l -> it ∈ l -> exists x h, items !! it.2 = Some x /\ h < 2 /\
      N.of_nat b = itemBin enc (binCount (N.of_nat (length items)) maxBin dummies) x h.
Proof.
  intros HO H1 H2. unfold balanced. rewrite (numBinsOf_eq _ _ _ H1 H2). pose proof (binCount_pos (N.of_nat (length items)) maxBin dummies) as Hp.
  set (m := binCount _ _ _) in *. clearbody m.
  destruct (insert_ok ord (N.to_nat m) maxBin _ HO (cands_ok enc m items Hp) rs) as [->|(out & -> & L & HF & HP & HC)]; [by left|].
  right. exists out. split; [done|]. split; [rewrite L; lia|]. split; [done|]. split; [unfold allPlaced; by rewrite map_length in HP|].
  intros b l it Hl Hi. destruct (HC b l it Hl Hi) as (k & [Q|Q]); apply cands_lookup in Q as (x & Hx & E); injection E as E1 E2; exists x.
  - exists 0. split; [done|]. split; [done|]. by rewrite E1, N2Nat.id.
  - exists 1. split; [done|]. split; [done|]. by rewrite E2, N2Nat.id.
Qed.

(** The first pass is the greedy allocation. *)
Lemma firstPass_loads enc m items : forall idx bins bins', firstPass (map (binsOf enc m) items) idx bins = Some bins' ->
  map bCnt bins' = fold_left (greedyStep enc m) items (map bCnt bins).
Proof.
  induction items as [|x items IH]; intros idx bins bins' H; cbn [map firstPass fold_left] in *; [by injection H as <-|]. rewrite binsOf_eq in H.
  unfold place in H. unfold greedyStep at 2. set (b1 := N.to_nat (itemBin enc m x 0)) in *. set (b2 := N.to_nat (itemBin enc m x 1)) in *.
  assert (forall b B, bins !! b = Some B -> nth b (map bCnt bins) 0 = bCnt B) as G.
  { intros b B HB. apply nth_lookup_Some. change (map ?f ?l) with (f <$> l). by rewrite list_lookup_fmap, HB. }
  destruct (bins !! b1) as [B1|] eqn:E1; [|done]. destruct (bins !! b2) as [B2|] eqn:E2; [|done]. rewrite (G b1 B1 E1), (G b2 B2 E2). cbv zeta.
  destruct (bCnt B1 <? bCnt B2); apply IH in H; rewrite H; f_equal; change (map ?f ?l) with (f <$> l); rewrite list_fmap_insert; cbn [bCnt].
  - by rewrite <- (G b1 B1 E1).
  - by rewrite <- (G b2 B2 E2).
Qed.

Lemma balanced_light ord enc maxBin dummies items rs : anyOrder ord -> dummies < maxBin -> maxBin < two64 ->
  Forall (fun c => c <= maxBin) (greedyLoads enc (binCount (N.of_nat (length items)) maxBin dummies) items) ->
  exists out, balanced ord enc maxBin dummies items rs = Done out /\
    forall b l it, out !! b = Some l -> it ∈ l -> exists x, items !! it.2 = Some x /\ it.1 < 2 /\
      N.of_nat b = itemBin enc (binCount (N.of_nat (length items)) maxBin dummies) x it.1.
Proof.
  intros HO H1 H2 HN. unfold balanced. rewrite (numBinsOf_eq _ _ _ H1 H2). pose proof (binCount_pos (N.of_nat (length items)) maxBin dummies) as Hp.
  set (m := binCount _ _ _) in *. clearbody m. destruct (start_ok (N.to_nat m) _ (cands_ok enc m items Hp)) as (bins & E & [L HB] & HS).
  assert (scanHeavy maxBin bins = []) as EH.
  { destruct (scanHeavy maxBin bins) as [|b t] eqn:Eh; [done|]. assert (b ∈ scanHeavy maxBin bins) as Hb by (rewrite Eh; left).
    unfold scanHeavy in Hb. apply elem_of_list_filter in Hb as [Hc Hb]. unfold cntOf in Hc. destruct (bins !! b) as [B|] eqn:EB; [|lia].
    apply firstPass_loads in E. unfold newBins in E. change (map bCnt (replicate ?k ?x)) with (bCnt <$> replicate k x) in E. rewrite fmap_replicate in E. cbn [bCnt] in E. unfold greedyLoads in HN. rewrite <- E in HN.
    rewrite Forall_lookup in HN. specialize (HN b (bCnt B)). cbn beta in HN. assert (bCnt B <= maxBin); [|lia]. apply HN. change (map ?f ?l) with (f <$> l). by rewrite list_lookup_fmap, EB. }
  destruct (insert_light ord (N.to_nat m) maxBin _ HO (cands_ok enc m items Hp) rs bins E EH) as (out & -> & _ & HC). exists out. split; [done|].
  intros b l it Hl Hi. destruct (HC b l it Hl Hi) as (k & [[-> Q]|[-> Q]]); apply cands_lookup in Q as (x & Hx & Ec); injection Ec as E1 E2; exists x.
  - split; [done|]. split; [done|]. by rewrite E1, N2Nat.id.
  - split; [done|]. split; [done|]. by rewrite E2, N2Nat.id.
Qed.

(** ** A run that never ends *)

Definition stuck0 : list bbin := [mkBBin [(1%nat, [(1, 0%nat)]); (0%nat, [(1, 1%nat)])] [1%nat] 2; mkBBin [] [] 0; mkBBin [] [] 0].
Definition stuck1 : list bbin := [mkBBin [(1%nat, []); (0%nat, [(1, 1%nat)])] [1%nat] 1; mkBBin [(0%nat, [(1, 0%nat)])] [0%nat] 1; mkBBin [] [] 0].
Lemma draw1 r rs : draw 1 (r :: rs) = Some (0%nat, rs).
Proof. unfold draw. change (N.of_nat 1) with 1. by rewrite N.mod_1_r. Qed.
Lemma stuck1_step rs : balanceStep 1 stuck1 [0%nat] rs = OutOfFuel \/ exists rs', balanceStep 1 stuck1 [0%nat] rs = Done (stuck1, [0%nat], rs').
Proof.
  unfold balanceStep. destruct rs as [|r rs]; [by left|]. change (length [0%nat]) with 1%nat. rewrite draw1. cbn [lookup list_lookup stuck1 bLight].
  change (length [1%nat]) with 1%nat. destruct rs as [|r2 rs]; [by left|]. rewrite draw1. cbn. right. by eexists.
Qed.
Lemma stuck1_loop fuel : forall rs bins, balance fuel 1 stuck1 [0%nat] rs ≠ Done bins.
Proof.
  induction fuel as [|f IH]; intros rs bins; [done|]. cbn [balance]. destruct (stuck1_step rs) as [->|[rs' ->]]; [done|]. apply IH.
Qed.
Local Arguments draw : simpl never.
Local Arguments moveItem : simpl never.
Lemma stuck0_loop fuel rs bins : balance fuel 1 stuck0 [0%nat] rs ≠ Done bins.
Proof.
  destruct fuel as [|f]; [done|]. cbn [balance]. unfold balanceStep. destruct rs as [|r rs]; [done|]. cbn. rewrite draw1. cbn.
  destruct rs as [|r2 rs]; [done|]. rewrite draw1. cbn. destruct rs as [|r3 rs]; [done|].
  destruct (draw 2 (r3 :: rs)) as [[rB rs3]|] eqn:D; [|done]. rewrite orb_true_r. destruct rs3 as [|r4 rs3]; [done|]. rewrite draw1. cbn.
  change (moveItem 1 0 1 0 0 [(1, 0%nat)] (1, 0%nat) _ [0%nat]) with (Some (stuck1, [0%nat])). cbv iota. apply stuck1_loop.
Qed.
