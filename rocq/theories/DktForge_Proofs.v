(** Proofs about the challenges of DKT. *)
From Verif Require Import Base Ecdh_Model Dkt_Model Dkt_Spec Dkt_Proofs DktForge_Spec.

Section Forge.
Context (D : dkt) (L : dktLaws D).
Notation "a ⊕ b" := (padd D a b) (at level 50, left associativity).
Notation "a ⊖ b" := (psub D a b) (at level 50, left associativity).
Notation "a ⊗ k" := (pmul D a k) (at level 40, left associativity).

Lemma undoes_sym e v : undoes D e v -> undoes D v e.
Proof using L. intros H a. rewrite (pmulA D L), (smulC D L), <- (pmulA D L). apply H. Qed.
Lemma pmul_zero a b : b ⊖ a ⊗ szero D = b.
Proof using L. apply (sub_move D L). by rewrite (paddC D L), (pmul0 D L). Qed.
Lemma undoes_exists : primeOrder D -> forall e, e <> szero D -> exists v, undoes D e v.
Proof using L.
  intros HP e He. destruct (HP e (szero D) He) as [v Hv]. exists v. intros a. rewrite <- (Hv a) at 2. f_equal.
  by rewrite (pmulBr D L), pmul_zero.
Qed.

Lemma late_ok c v phi P a : undoes D c v -> a ⊕ late D v phi P a ⊗ c = P ⊗ phi.
Proof using L. intros H. unfold late. rewrite (undoes_sym _ _ H), (paddC D L). apply (psubK D L). Qed.
Lemma late_only c v phi P a Q : undoes D c v -> a ⊕ Q ⊗ c = P ⊗ phi -> Q = late D v phi P a.
Proof using L. intros H E. unfold late. rewrite <- E, (paddC D L), (paddK D L). symmetry. apply H. Qed.
Lemma late_key v phi P k : late D v phi P (P ⊗ k) = P ⊗ smul D (ssub D phi k) v.
Proof using L. unfold late. by rewrite <- (pmulBr D L), (pmulA D L). Qed.

Lemma sized_zip {A B C} (f : A -> B -> C) T n (l : list (list A)) (k : list (list B)) :
  sized T n l = true -> sized T n k = true -> sized T n (zip_with (zip_with f) l k) = true.
Proof using.
  unfold sized. intros Hl Hk. apply bool_decide_eq_true in Hl, Hk. apply bool_decide_eq_true. rewrite <- Hl in Hk |- *.
  clear Hl. revert k Hk. induction l as [|x l IH]; intros [|y k] Hk; try done. cbn in *. injection Hk as Hy Hk.
  f_equal; [|by apply IH]. rewrite zip_with_length. lia.
Qed.
Lemma sized_map2 {A B} (f : A -> B) T n (l : list (list A)) : sized T n (map (map f) l) = sized T n l.
Proof using.
  unfold sized. assert (map length (map (map f) l) = map length l) as ->; [|done]. rewrite map_map. apply map_ext. intros x. apply map_length.
Qed.

Lemma all_mp c phi Ms As v : undoes D c v -> forallb id (concat (zip_with (fun ms am => zip_with (fun M a => mpProof D c phi M a.1 a.2) ms am)
  Ms (zip_with zip As (zip_with (zip_with (late D v phi)) Ms As)))) = true.
Proof using L.
  intros H. revert As. induction Ms as [|ms Ms IH]; intros [|as' As]; try done. cbn. rewrite forallb_app, IH, andb_true_r.
  clear IH. revert as'. induction ms as [|M ms IHm]; intros [|a as']; try done. cbn. rewrite IHm, andb_true_r. apply bool_decide_eq_true.
  by apply late_ok.
Qed.

Lemma sender_late r T R items m1 A As v phi Ts old : undoes D (challenge D A As) v ->
  sized T (length R) (m1Items m1) = true -> sized T (length R) As = true -> sized T (length R) Ts = true ->
  exists out, recvFinish D r T R items m1 (lateMsg D (map (map tripleM) (m1Items m1)) A As v phi Ts) old = Done out.
Proof using L.
  intros Hv HM HA HT. unfold recvFinish, lateMsg. cbn [sA sAs sZ sPhi sMps sTs]. rewrite HA. cbn [negb]. cbv zeta. unfold zProof. cbn [sA sAs sZ sPhi sMps sTs].
  rewrite (bool_decide_eq_true_2 _ (late_ok _ v phi (gg D) A Hv)). cbn [negb].
  rewrite sized_zip by (rewrite ?sized_map2; done). cbn [negb]. rewrite all_mp by done. rewrite HT. cbn [negb]. eauto.
Qed.

Lemma late_all r T R items m1 m old out v : recvFinish D r T R items m1 m old = Done out -> sized T (length R) (m1Items m1) = true ->
  undoes D (challenge D (sA m) (sAs m)) v -> m = lateMsg D (map (map tripleM) (m1Items m1)) (sA m) (sAs m) v (sPhi m) (sTs m).
Proof using L.
  intros HD HS Hv. pose proof (finish_checks _ _ _ _ _ _ _ _ _ HD) as [HZ HM].
  assert (sized T (length R) (sAs m) = true) as HSA. { unfold recvFinish in HD. destruct (sized _ _ (sAs m)); done. }
  assert (sized T (length R) (sMps m) = true) as HSM.
  { unfold recvFinish in HD. destruct (negb (sized _ _ (sAs m))); [done|]. cbv zeta in HD. destruct (negb (zProof _ _ _)); [done|]. destruct (sized _ _ (sMps m)); done. }
  destruct m as [A As Z phi Mps Ts]. cbn [sA sAs sZ sPhi sMps sTs] in *. unfold lateMsg. f_equal; [by apply (late_only _ _ _ _ _ _ Hv)|].
  rewrite <- (sized_map2 tripleM) in HS. set (Ms := map (map tripleM) (m1Items m1)) in *. clearbody Ms.
  clear HD HZ. unfold sized in *. apply bool_decide_eq_true in HS, HSA, HSM. rewrite <- HS in HSA, HSM. clear HS. generalize dependent (challenge D A As). intros c Hv HM.
  revert As Mps HSA HSM HM. induction Ms as [|ms Ms IH]; intros [|as' As] [|mps Mps] HSA HSM HM; try done. cbn in HSA, HSM |- *.
  injection HSA as Ha HSA. injection HSM as Hm HSM. f_equal.
  - specialize (HM 0%nat). unfold entryAt in HM. cbn in HM. clear IH. revert as' mps Ha Hm HM. induction ms as [|M ms IHm]; intros [|a as'] [|Mp mps] Ha Hm HM; try done.
    cbn in Ha, Hm |- *. injection Ha as Ha. injection Hm as Hm. f_equal.
    + apply (late_only c _ _ _ _ _ Hv). apply (HM 0%nat); done.
    + apply IHm; [done|done|]. intros k M' a' Mp' H1 H2 H3. apply (HM (S k)); done.
  - apply IH; [done|done|]. intros t k M a Mp H1 H2 H3. apply (HM (S t) k M a Mp); done.
Qed.

Lemma committed r T R items m1 m old out k : primeOrder D -> recvFinish D r T R items m1 m old = Done out ->
  sized T (length R) (m1Items m1) = true -> challenge D (sA m) (sAs m) <> szero D -> oneKey D (map (map tripleM) (m1Items m1)) (sAs m) (sA m) k ->
  exists w, oneKey D (map (map tripleM) (m1Items m1)) (sMps m) (sZ m) w.
Proof using L.
  intros HP HD HS Hc [HA HAs]. destruct (undoes_exists HP _ Hc) as [v Hv]. exists (smul D (ssub D (sPhi m) k) v).
  pose proof (finish_checks _ _ _ _ _ _ _ _ _ HD) as [HZ HM]. split.
  - rewrite (late_only _ _ _ _ _ _ Hv HZ), HA. apply late_key.
  - intros t i M Mp H1 H2. assert (exists a, entryAt (sAs m) t i = Some a) as [a Ha].
    { assert (sized T (length R) (sAs m) = true) as HSA. { unfold recvFinish in HD. destruct (sized _ _ (sAs m)); done. }
      rewrite entryAt_map in H1. destruct (entryAt (m1Items m1) t i) as [it|] eqn:E; [|done].
      unfold sized in *. apply bool_decide_eq_true in HS, HSA. rewrite <- HS in HSA. unfold entryAt in *.
      destruct (m1Items m1 !! t) as [q|] eqn:Eq; [|done]. assert (map length (sAs m) !! t = Some (length q)) as Hl.
      { rewrite HSA. rewrite (list_lookup_fmap length), Eq. done. }
      rewrite (list_lookup_fmap length) in Hl. destruct (sAs m !! t) as [q'|]; [|done]. injection Hl as Hl.
      apply lookup_lt_is_Some_2. rewrite Hl. by apply lookup_lt_Some in E. }
    rewrite (late_only _ _ _ _ _ _ Hv (HM t i M a Mp H1 Ha H2)), (HAs t i M a H1 Ha). apply late_key.
Qed.

(** ** The receiver's proof *)
Lemma lateN_ok X A v phi M B phi' e : undoes D e v -> itemProof D e phi X A (M, lateN D X A v phi M B phi', B) phi' = true.
Proof using L.
  intros H. apply bool_decide_eq_true. unfold lateN, tripleM, tripleN, tripleB. cbn [fst snd]. set (G := gen D ⊗ phi ⊖ (gg D ⊕ gggS D) ⊗ phi').
  set (W := (G ⊖ (A ⊖ B)) ⊗ v).
  assert (X ⊖ (M ⊕ (X ⊖ M ⊖ W)) = W) as ->.
  { apply (sub_move D L). rewrite (paddC D L M), (paddA D L), (paddC D L W), (psubK D L), (psubK D L). done. }
  unfold W. rewrite (undoes_sym _ _ H), (paddC D L). symmetry. apply (psubK D L).
Qed.

Lemma receiver_late s T S X A v phi its : (0 < T)%nat -> N.of_nat (length S) * N.of_nat T < 2 ^ 64 ->
  undoes D (challenge D A (map (map (fun i => i.1.2)) its)) v -> sized T (length S) its = true ->
  exists vs m, sendInputS D s T S (lateFirst D X A v phi its) (lateSecond D phi its) = Done (Some (vs, m)) /\
    map length vs = map length its /\ Forall (Forall (fun b => b = true)) vs.
Proof using L.
  intros HT Hw Hv Hs. unfold sendInputS. rewrite (proj2 (Nat.eqb_neq T 0)) by lia. rewrite (threadItems_eq T (length S) HT Hw S eq_refl).
  unfold lateFirst, lateSecond. cbn [m1Items m2Phis m1A m1X m2Phi]. rewrite !sized_map2, Hs. cbn [negb]. cbv zeta.
  assert (map (map tripleB) (map (map (fun i : pt D * pt D * sc D => (i.1.1, lateN D X A v phi i.1.1 i.1.2 i.2, i.1.2))) its) = map (map (fun i => i.1.2)) its) as ->.
  { rewrite map_map. apply map_ext. intros l. by rewrite map_map. }
  eexists _, _. split; [reflexivity|]. generalize dependent (challenge D A (map (map (fun i => i.1.2)) its)). intros e He.
  clear Hs. induction its as [|l its IH]; [split; [done|constructor]|]. cbn. destruct IH as [IH1 IH2]. split.
  - f_equal; [|exact IH1]. rewrite zip_with_length, !map_length. lia.
  - constructor; [|exact IH2]. clear IH1 IH2. induction l as [|i l IHl]; cbn; constructor; [|exact IHl]. by apply lateN_ok.
Qed.

(** ** What a challenge fixes *)
Lemma inl_app_inr {A B} (a a' : list A) (b b' : list B) : map inl a ++ map inr b = map inl a' ++ map inr b' -> a = a' /\ b = b'.
Proof using.
  revert a'. induction a as [|x a IH]; intros [|y a'] E; cbn in E.
  - split; [done|]. clear -E. revert b' E. induction b as [|x b IH]; intros [|y b'] E; try done. cbn in E. injection E as -> E. f_equal. by apply IH.
  - destruct b; done.
  - destruct b'; done.
  - injection E as -> E. destruct (IH _ E) as [-> ->]. done.
Qed.
Lemma map_inl_inj {A B} (l l' : list A) : map (@inl A B) l = map inl l' -> l = l'.
Proof using. revert l'. induction l as [|x l IH]; intros [|y l'] E; try done. cbn in E. injection E as -> E. f_equal. by apply IH. Qed.

Lemma challenge_fixes f f' l l' : l <> [] -> l' <> [] -> noCollision D f f' l l' -> challenge D f l = challenge D f' l' -> f = f' /\ l = l'.
Proof using.
  intros Hl Hl' (Ho & Hw & Ht) E.
  assert (forall g k, challenge D g k = toSc D (roE D (whole D g k))) as EQ.
  { intros g k. unfold challenge, whole, others. by rewrite map_map. }
  rewrite !EQ in E. apply Ht, Hw in E. clear EQ Ht Hw. unfold whole in E. injection E as -> E. split; [done|].
  destruct l as [|t l]; [done|]. destruct l' as [|t' l']; [done|]. cbn [head from_option tail] in *. change (id t) with t in E. change (id t') with t' in E. clear Hl Hl'.
  assert (forall k : list (list (pt D + N)), map (fun u => @inr (pt D) N (roE D u)) k = map inr (map (roE D) k)) as EQ by (intros k; by rewrite map_map).
  unfold others in E; cbn [tail] in E. rewrite !EQ in E. apply inl_app_inr in E as [-> E]. f_equal. clear EQ. unfold others in *. cbn [tail] in *.
  revert l' Ho E. induction l as [|u l IH]; intros [|u' l'] Ho E; try done. cbn in E. injection E as Eu E.
  f_equal; [|apply IH; [|done]].
  - apply (map_inl_inj (B := N)). apply Ho; [left|left|done].
  - intros x x' Hx Hx'. apply Ho; by right.
Qed.
End Forge.
