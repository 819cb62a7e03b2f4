(** Proofs about the polynomial tree. *)
From Verif Require Import Base PolyTree_Model PolyTree_Spec.
From Coq Require Import Field.

Section algebra.
Context (K : fops) (HK : isField K).
Notation F := (fT K).
Notation poly := (list F).
Notation "0" := (f0 K). Notation "1" := (f1 K).
Infix "+" := (fadd K). Infix "*" := (fmul K). Infix "-" := (fsub K). Notation "- a" := (fopp K a).
Notation ev := (evalAt K).

Lemma Kfield : field_theory 0 1 (fadd K) (fmul K) (fsub K) (fopp K) (fun a b => a * finv K b) (finv K) eq.
Proof using HK. exact (proj1 HK). Qed.
Add Field KF : Kfield.

Lemma feq a b : feqb K a b = true <-> a = b.
Proof using HK. exact (proj2 HK a b). Qed.
Lemma inv_r a : a <> 0 -> a * finv K a = 1.
Proof using HK. intros H. field. done. Qed.

Lemma norm_cons a p : norm K (a :: p) = match norm K p with [] => if feqb K a 0 then [] else [a] | b :: q => a :: b :: q end.
Proof using. unfold norm. cbn [foldr]. by destruct (foldr _ _ p). Qed.
Lemma ev_norm p x : ev (norm K p) x = ev p x.
Proof using HK.
  induction p as [|a p IH]; [done|]. rewrite norm_cons. destruct (norm K p) as [|b q] eqn:E.
  - destruct (feqb K a 0) eqn:Ea.
    + apply feq in Ea. subst a. cbn [evalAt] in *. rewrite <- IH. ring.
    + cbn [evalAt] in *. rewrite <- IH. ring.
  - cbn [evalAt] in IH |- *. by rewrite <- IH.
Qed.
Lemma norm_length p : (length (norm K p) <= length p)%nat.
Proof using. induction p as [|a p IH]; [done|]. rewrite norm_cons. destruct (norm K p); [destruct (feqb K a 0)|]; cbn in *; lia. Qed.
Lemma norm_normal p : normal K (norm K p).
Proof using HK.
  induction p as [|a p IH]; [intros q b E; by destruct q|]. rewrite norm_cons. destruct (norm K p) as [|b q] eqn:E.
  - destruct (feqb K a 0) eqn:Ea; intros q b Eq; [by destruct q|]. destruct q as [|c [|]]; [|done..]. injection Eq as <-. intros ->. assert (feqb K 0 0 = true) by by apply feq. congruence.
  - intros q' c Eq. destruct q' as [|d q']; [done|]. injection Eq as <- Eq. by apply (IH q' c).
Qed.
Lemma norm_id p : normal K p -> norm K p = p.
Proof using HK.
  induction p as [|a p IH]; [done|]. intros H. rewrite norm_cons. rewrite IH.
  - destruct p as [|b p]; [|done]. destruct (feqb K a 0) eqn:E; [|done]. apply feq in E. by destruct (H [] a).
  - intros q b E. apply (H (a :: q) b). cbn. by rewrite E.
Qed.
Lemma norm_lead p a : a <> 0 -> norm K (p ++ [a]) = p ++ [a].
Proof using HK. intros Ha. apply norm_id. intros q b E. by apply app_inj_tail in E as [_ <-]. Qed.

Lemma ev_add p q x : ev (padd K p q) x = ev p x + ev q x.
Proof using HK.
  revert q. induction p as [|a p IH]; intros q; [cbn; ring|]. destruct q as [|b q]; [cbn; ring|]. cbn. rewrite IH. ring.
Qed.
Lemma ev_scale c p x : ev (pscale K c p) x = c * ev p x.
Proof using HK. induction p as [|a p IH]; cbn; [ring|]. unfold pscale in IH. rewrite IH. ring. Qed.
Lemma ev_mul p q x : ev (pmul K p q) x = ev p x * ev q x.
Proof using HK. induction p as [|a p IH]; cbn; [ring|]. rewrite ev_add, ev_scale. cbn. rewrite IH. ring. Qed.
Lemma ev_shift n x : exists c, forall p, ev (replicate n 0 ++ p) x = c * ev p x.
Proof using HK.
  induction n as [|n [c Hc]]; [exists 1; intros; cbn; ring|]. exists (x * c). intros q. cbn. rewrite Hc. ring.
Qed.
Lemma ev_addP p q x : ev (addP K p q) x = ev p x + ev q x.
Proof using HK. unfold addP. by rewrite ev_norm, ev_add. Qed.
Lemma ev_mulP p q x : ev (mulP K p q) x = ev p x * ev q x.
Proof using HK. unfold mulP. by rewrite ev_norm, ev_mul. Qed.
Lemma ev_snoc p x : exists c, forall a, ev (p ++ [a]) x = ev p x + c * a.
Proof using HK.
  induction p as [|b p [c Hc]]; [exists 1; intros; cbn; ring|]. exists (x * c). intros b'. cbn. rewrite Hc. ring.
Qed.

Lemma padd_length p q : length (padd K p q) = Nat.max (length p) (length q).
Proof using. revert q. induction p as [|a p IH]; intros [|b q]; cbn; [done..|]. by rewrite IH. Qed.
Lemma pscale_length c p : length (pscale K c p) = length p.
Proof using. apply map_length. Qed.
Lemma pmul_length p q : (length (pmul K p q) <= length p + length q)%nat.
Proof using. induction p as [|a p IH]; [cbn; lia|]. cbn. rewrite padd_length, pscale_length. cbn. lia. Qed.
Lemma pmul_length_lt p q : (0 < length p)%nat -> (0 < length q)%nat -> (length (pmul K p q) <= length p + length q - 1)%nat.
Proof using.
  intros Hp Hq. induction p as [|a p IH]; [cbn in Hp; lia|]. cbn. rewrite padd_length, pscale_length. cbn. destruct p as [|b p]; [cbn; lia|].
  assert (length (pmul K (b :: p) q) <= length (b :: p) + length q - 1)%nat by (apply IH; cbn; lia). cbn [length] in *. lia.
Qed.

(** The leading coefficient is the last one. *)
Lemma padd_last p q a b : length p = length q -> padd K (p ++ [a]) (q ++ [b]) = padd K p q ++ [a + b].
Proof using. revert q. induction p as [|c p IH]; intros [|d q] E; try done. cbn. rewrite IH; [done|]. cbn in E. lia. Qed.

Lemma prem_step_ev a b x : (length b <= length a)%nat -> b <> [] -> lead K b <> 0 ->
  let c := - (lead K a * finv K (lead K b)) in
  let a' := removelast (padd K a (replicate (length a - length b) 0 ++ pscale K c b)) in
  S (length a') = length a /\ exists q, ev a' x = ev a x + q * ev b x.
Proof using HK.
  intros Hl Hb Hlead c a'. destruct (decide (a = [])) as [-> |Ha]; [destruct b; [done|cbn in Hl; lia]|].
  destruct (exists_last Ha) as (a1 & la & Ea). destruct (exists_last Hb) as (b1 & lb & Eb).
  assert (lead K a = la) as Ela by (unfold lead; rewrite Ea, last_snoc; done). assert (lead K b = lb) as Elb by (unfold lead; rewrite Eb, last_snoc; done).
  rewrite Elb in Hlead.
  set (d := (length a - length b)%nat) in a'.
  assert (padd K a (replicate d 0 ++ pscale K c b) = padd K a1 (replicate d 0 ++ pscale K c b1) ++ [0]) as E.
  { rewrite Ea, Eb. unfold pscale. rewrite map_app, app_assoc. cbn [map]. rewrite padd_last.
    - do 2 f_equal. unfold c. rewrite Ela, Elb. field. done.
    - unfold d. rewrite Ea, Eb, !app_length, replicate_length, map_length. cbn. rewrite Ea, Eb, !app_length in Hl. cbn in Hl. lia. }
  assert (a' = padd K a1 (replicate d 0 ++ pscale K c b1)) as E'. { unfold a'. rewrite E. apply removelast_last. }
  split.
  - rewrite E', padd_length, app_length, replicate_length, pscale_length. unfold d. rewrite Ea, Eb, !app_length in *. cbn in Hl |- *. lia.
  - destruct (ev_shift d x) as [s Hs]. exists (s * c). assert (ev (a' ++ [0]) x = ev a x + s * c * ev b x) as H.
    { rewrite E', <- E, ev_add, Hs, ev_scale. ring. }
    rewrite <- H. destruct (ev_snoc a' x) as [s' Hs']. rewrite Hs'. ring.
Qed.

Lemma prem_ev fuel a b x : b <> [] -> lead K b <> 0 -> exists q, ev (prem K fuel a b) x = ev a x + q * ev b x.
Proof using HK.
  intros Hb Hl. revert a. induction fuel as [|f IH]; intros a; cbn [prem]; [exists 0; ring|]. destruct (Nat.ltb_spec (length a) (length b)); [exists 0; ring|].
  destruct (prem_step_ev a b x ltac:(lia) Hb Hl) as [_ [q Hq]]. destruct (IH (removelast (padd K a (replicate (length a - length b) 0 ++ pscale K (- (lead K a * finv K (lead K b))) b)))) as [q' Hq'].
  exists (q + q'). rewrite Hq', Hq. ring.
Qed.
Lemma prem_len fuel a b : b <> [] -> lead K b <> 0 -> (length a <= fuel)%nat -> (length (prem K fuel a b) < length b)%nat.
Proof using HK.
  intros Hb Hl. revert a. induction fuel as [|f IH]; intros a Ha; cbn [prem].
  - destruct a; [|cbn in Ha; lia]. destruct b; [done|cbn; lia].
  - destruct (Nat.ltb_spec (length a) (length b)); [done|]. destruct (prem_step_ev a b 0 ltac:(lia) Hb Hl) as [HS _]. apply IH. lia.
Qed.

Lemma lead_norm p : norm K p <> [] -> lead K (norm K p) <> 0.
Proof using HK.
  intros H. destruct (exists_last H) as (q & a & E). unfold lead. rewrite E, last_snoc. cbn. by apply (norm_normal p q a).
Qed.
Lemma remP_ok a b : norm K b <> [] -> exists r, remP K a b = Some r /\ (length r < length b)%nat /\ forall x, ev b x = 0 -> ev r x = ev a x.
Proof using HK.
  intros Hb. unfold remP. assert (exists r, match norm K b with [] => None | b' => Some (norm K (prem K (length a) a b')) end = Some r /\ r = norm K (prem K (length a) a (norm K b))) as (r & E & Er).
  { destruct (norm K b); [done|]. by eexists. }
  exists r. split; [exact E|]. split.
  - rewrite Er. eapply Nat.le_lt_trans; [apply norm_length|]. eapply Nat.lt_le_trans; [apply prem_len; [done|by apply lead_norm|done]|apply norm_length].
  - intros x Hx. rewrite Er, ev_norm. destruct (prem_ev (length a) a (norm K b) x Hb (lead_norm b Hb)) as [q ->]. rewrite ev_norm, Hx. ring.
Qed.

(** Derivatives. *)
Fixpoint dv (p : poly) (x : F) : F := match p with [] => 0 | a :: p' => ev p' x + x * dv p' x end.
Lemma dv_add p q x : dv (padd K p q) x = dv p x + dv q x.
Proof using HK. revert q. induction p as [|a p IH]; intros q; [cbn; ring|]. destruct q as [|b q]; [cbn; ring|]. cbn. rewrite IH, ev_add. ring. Qed.
Lemma dv_scale c p x : dv (pscale K c p) x = c * dv p x.
Proof using HK. induction p as [|a p IH]; cbn; [ring|]. unfold pscale in IH. rewrite IH. fold (pscale K c p). rewrite ev_scale. ring. Qed.
Lemma dv_mul p q x : dv (pmul K p q) x = dv p x * ev q x + ev p x * dv q x.
Proof using HK. induction p as [|a p IH]; cbn; [ring|]. rewrite dv_add, dv_scale. cbn. rewrite IH, ev_mul. ring. Qed.
Lemma dv_norm p x : dv (norm K p) x = dv p x.
Proof using HK.
  induction p as [|a p IH]; [done|]. pose proof (ev_norm p x) as He. rewrite norm_cons. destruct (norm K p) as [|b q] eqn:E.
  - cbn [dv evalAt] in *. destruct (feqb K a 0); cbn [dv evalAt]; rewrite <- IH, <- He; ring.
  - cbn [dv] in *. cbn [evalAt] in He |- *. rewrite <- IH, <- He. ring.
Qed.
Lemma dv_mulP p q x : dv (mulP K p q) x = dv p x * ev q x + ev p x * dv q x.
Proof using HK. unfold mulP. by rewrite dv_norm, dv_mul. Qed.

Lemma fnat_add m n : fnat K (m + n) = fnat K m + fnat K n.
Proof using HK. induction m as [|m IH]; cbn; [ring|]. rewrite IH. ring. Qed.
Lemma ev_diff p x : ev (diffP K p) x = dv p x.
Proof using HK.
  unfold diffP. rewrite ev_norm. destruct p as [|a p]; [done|]. cbn [dv].
  assert (forall m, ev (imap (fun i a => fnat K (S (m + i)) * a) p) x = (fnat K m + 1) * ev p x + x * dv p x) as H.
  { clear a. induction p as [|a p IH]; intros m; [cbn; ring|]. cbn [imap evalAt dv].
    assert (imap ((fun i a0 => fnat K (S (m + i)) * a0) ∘ S) p = imap (fun i a0 => fnat K (S (S m + i)) * a0) p) as ->.
    { apply imap_ext. intros i y _. cbn. by rewrite Nat.add_succ_r. }
    rewrite IH. rewrite Nat.add_0_r. cbn [fnat]. ring. }
  specialize (H O). cbn [Nat.add] in H. etransitivity; [exact H|]. cbn [fnat]. ring.
Qed.

(** A monic product is monic. *)
Definition monic (p : poly) (d : nat) : Prop := exists q, p = q ++ [1] /\ length q = d.
Lemma one_zero : 1 <> 0.
Proof using HK. exact (F_1_neq_0 Kfield). Qed.
Lemma monic_norm p d : monic p d -> norm K p = p.
Proof using HK. intros (q & -> & _). apply norm_lead, one_zero. Qed.
Lemma monic_length p d : monic p d -> length p = S d.
Proof using. intros (q & -> & <-). rewrite app_length. cbn. lia. Qed.
Lemma pscale_last c q a : pscale K c (q ++ [a]) = pscale K c q ++ [c * a].
Proof using. unfold pscale. by rewrite map_app. Qed.
Lemma padd_short p q a : (length p <= length q)%nat -> padd K p (q ++ [a]) = padd K p q ++ [a].
Proof using.
  revert q. induction p as [|b p IH]; intros q H; [done|]. destruct q as [|c q]; [cbn in H; lia|]. cbn. rewrite IH; [done|]. cbn in H. lia.
Qed.
Lemma pmul_monic p d q e : monic p d -> monic q e -> monic (pmul K p q) (d + e).
Proof using HK.
  intros (p' & -> & <-) Hq. induction p' as [|a p' IH]; cbn [app pmul].
  - assert (padd K (pscale K 1 q) [0] = q) as ->; [|done]. assert (pscale K 1 q = q) as ->.
    { unfold pscale. rewrite <- (map_id q) at 2. apply map_ext. intros; ring. }
    destruct q as [|b q]; [destruct Hq as (q' & E & _); by destruct q'|]. cbn. f_equal; [ring|]. by destruct q.
  - destruct IH as (r & E & Hr). rewrite E. change (0 :: r ++ [1]) with ((0 :: r) ++ [1]). exists (padd K (pscale K a q) (0 :: r)). split.
    + apply padd_short. rewrite pscale_length. rewrite (monic_length _ _ Hq). cbn. lia.
    + rewrite padd_length, pscale_length, (monic_length _ _ Hq). cbn. lia.
Qed.
Lemma mulP_monic p d q e : monic p d -> monic q e -> monic (mulP K p q) (d + e).
Proof using HK. intros Hp Hq. unfold mulP. pose proof (pmul_monic p d q e Hp Hq) as H. by rewrite (monic_norm _ _ H). Qed.
End algebra.

(** * The arrays of nodes *)
Local Open Scope nat_scope.

Lemma papa_left x : PAPA (LEFT x) = x.
Proof. unfold PAPA, LEFT. lia. Qed.
Lemma papa_right x : PAPA (RIGHT x) = x.
Proof. unfold PAPA, RIGHT. lia. Qed.
Lemma papa_lt x : 0 < x -> PAPA x < x.
Proof. unfold PAPA. lia. Qed.
Lemma child_cases x : 0 < x -> x = LEFT (PAPA x) \/ x = RIGHT (PAPA x).
Proof. unfold PAPA, LEFT, RIGHT. lia. Qed.

(** The nodes below [r] in breadth-first order. *)
Fixpoint bfsF (fuel r j : nat) : nat :=
  match fuel with
  | O => r
  | S f => if j =? 0 then r else if j mod 2 =? 1 then LEFT (bfsF f r (PAPA j)) else RIGHT (bfsF f r (PAPA j))
  end.
Definition bfs (r j : nat) : nat := bfsF (S j) r j.
Lemma bfsF_fuel f g r j : j < f -> j < g -> bfsF f r j = bfsF g r j.
Proof.
  revert g j. induction f as [|f IH]; intros g j Hf Hg; [lia|]. destruct g as [|g]; [lia|]. cbn [bfsF]. destruct (Nat.eqb_spec j 0); [done|].
  pose proof (papa_lt j ltac:(lia)). rewrite (IH g (PAPA j)) by lia. done.
Qed.
Lemma bfs_0 r : bfs r 0 = r.
Proof. done. Qed.
Lemma bfs_step r j : 0 < j -> bfs r j = if j mod 2 =? 1 then LEFT (bfs r (PAPA j)) else RIGHT (bfs r (PAPA j)).
Proof.
  intros Hj. unfold bfs. cbn [bfsF]. destruct (Nat.eqb_spec j 0); [lia|]. pose proof (papa_lt j Hj). by rewrite (bfsF_fuel j (S (PAPA j)) r (PAPA j)) by lia.
Qed.
Lemma bfs_left r k : bfs r (LEFT k) = LEFT (bfs r k).
Proof. rewrite bfs_step by (unfold LEFT; lia). rewrite papa_left. replace (LEFT k mod 2 =? 1) with true; [done|]. symmetry. apply Nat.eqb_eq. unfold LEFT. lia. Qed.
Lemma bfs_right r k : bfs r (RIGHT k) = RIGHT (bfs r k).
Proof. rewrite bfs_step by (unfold RIGHT; lia). rewrite papa_right. replace (RIGHT k mod 2 =? 1) with false; [done|]. symmetry. apply Nat.eqb_neq. unfold RIGHT. lia. Qed.
Lemma bfs_mono r i j : i < j -> bfs r i < bfs r j.
Proof.
  revert i. induction j as [j IH] using lt_wf_ind. intros i Hij. destruct (decide (i = 0)) as [-> |Hi].
  - rewrite bfs_0. rewrite bfs_step by lia. destruct (decide (PAPA j = 0)) as [E|E].
    + rewrite E, bfs_0. destruct (_ =? 1); unfold LEFT, RIGHT; lia.
    + assert (bfs r 0 < bfs r (PAPA j)) as H by (apply IH; [apply papa_lt|]; lia). rewrite bfs_0 in H. destruct (_ =? 1); unfold LEFT, RIGHT; lia.
  - rewrite (bfs_step r i), (bfs_step r j) by lia. destruct (decide (PAPA i = PAPA j)) as [E|E].
    + rewrite E. unfold PAPA in E. destruct (Nat.eqb_spec (i mod 2) 1), (Nat.eqb_spec (j mod 2) 1); unfold LEFT, RIGHT; lia.
    + assert (bfs r (PAPA i) < bfs r (PAPA j)) as H by (apply IH; [apply papa_lt; lia|unfold PAPA in *; lia]).
      destruct (_ =? 1), (_ =? 1); unfold LEFT, RIGHT; lia.
Qed.
Lemma bfs_ge r j : j + r <= bfs r j.
Proof. induction j as [|j IH]; [by rewrite bfs_0|]. pose proof (bfs_mono r j (S j)). lia. Qed.
Lemma bfs_inj r i j : bfs r i = bfs r j -> i = j.
Proof. intros E. destruct (Nat.lt_trichotomy i j) as [H|[H|H]]; [|done|]; apply (bfs_mono r) in H; lia. Qed.

Lemma genLoop_ok total r fuel L : 0 < L -> (forall j, 0 < j < L -> bfs r j < total) -> total <= L + fuel ->
  exists L', L <= L' /\ genLoop fuel total (map (bfs r) (seq 0 L)) = map (bfs r) (seq 0 L') /\ (forall j, 0 < j < L' -> bfs r j < total) /\ total <= bfs r L'.
Proof.
  revert L. induction fuel as [|f IH]; intros L HL Hlt Hf.
  - exists L. split; [done|]. split; [done|]. split; [done|]. pose proof (bfs_ge r L). lia.
  - cbn [genLoop]. rewrite map_length, seq_length. destruct (Nat.ltb_spec L total) as [H|H].
    + assert (nth (PAPA L) (map (bfs r) (seq 0 L)) 0 = bfs r (PAPA L)) as ->.
      { pose proof (papa_lt L HL). rewrite (nth_indep _ 0 (bfs r 0)) by (rewrite map_length, seq_length; lia). rewrite (map_nth (bfs r)). by rewrite seq_nth. }
      rewrite <- bfs_step by done. destruct (Nat.leb_spec total (bfs r L)) as [H2|H2].
      * exists L. done.
      * replace (map (bfs r) (seq 0 L) ++ [bfs r L]) with (map (bfs r) (seq 0 (S L))) by (by rewrite seq_S, map_app).
        destruct (IH (S L)) as (L' & H3 & H4 & H5 & H6); [lia| |lia|exists L'; repeat split; try done; try lia].
        intros j Hj. destruct (decide (j = L)) as [-> |]; [done|]. apply Hlt. lia.
    + exists L. split; [done|]. split; [done|]. split; [done|]. pose proof (bfs_ge r L). lia.
Qed.
Lemma genSub_ok total r : 0 < total -> exists L, 0 < L /\ genSub total r = Some (map (bfs r) (seq 0 L)) /\ (forall j, 0 < j < L -> bfs r j < total) /\ total <= bfs r L.
Proof.
  intros Ht. unfold genSub. destruct (Nat.eqb_spec total 0); [lia|].
  destruct (genLoop_ok total r total 1) as (L & H1 & H2 & H3 & H4); [lia|lia|lia|]. exists L. split; [lia|]. split; [by rewrite <- H2|]. done.
Qed.

(** [v] is at or below [r]. *)
Definition below (r v : nat) : Prop := exists j, bfs r j = v.
Lemma below_refl r : below r r.
Proof. by exists 0. Qed.
Lemma below_child r v : below r v -> below r (LEFT v) /\ below r (RIGHT v).
Proof. intros [j <-]. split; [exists (LEFT j); apply bfs_left|exists (RIGHT j); apply bfs_right]. Qed.
Lemma below_papa r v : below r v -> r < v -> below r (PAPA v).
Proof.
  intros [j <-] H. destruct (decide (j = 0)) as [-> |Hj]; [rewrite bfs_0 in H; lia|]. exists (PAPA j). rewrite (bfs_step r j) by lia.
  destruct (_ =? 1); [by rewrite papa_left|by rewrite papa_right].
Qed.
Lemma below_ge r v : below r v -> r <= v.
Proof. intros [j <-]. pose proof (bfs_ge r j). lia. Qed.
(** The subtrees of the threads are disjoint. *)
Lemma below_disjoint T r s v : 0 < T -> T - 1 <= r <= 2 * T - 2 -> T - 1 <= s <= 2 * T - 2 -> below r v -> below s v -> r = s.
Proof.
  intros HT Hr Hs. induction v as [v IH] using lt_wf_ind. intros H1 H2. pose proof (below_ge _ _ H1). pose proof (below_ge _ _ H2).
  destruct (decide (v <= 2 * T - 2)) as [Hv|Hv].
  - assert (forall r, T - 1 <= r <= 2 * T - 2 -> below r v -> r = v) as Hq; [|by rewrite (Hq r), (Hq s)]. clear - HT Hv. intros r Hr [j Hj].
    destruct (decide (j = 0)) as [-> |Hne]; [done|]. exfalso. rewrite bfs_step in Hj by lia. pose proof (bfs_ge r (PAPA j)). destruct (_ =? 1); unfold LEFT, RIGHT in Hj; lia.
  - apply (IH (PAPA v)); [apply papa_lt; lia|apply below_papa; [done|lia]|apply below_papa; [done|lia]].
Qed.
(** Every node from [T - 1] on is in one of them. *)
Lemma below_cover T v : 0 < T -> T - 1 <= v -> exists i, i < T /\ below (T - 1 + i) v.
Proof.
  intros HT. induction v as [v IH] using lt_wf_ind. intros Hv. destruct (decide (v <= 2 * T - 2)) as [H|H].
  - exists (v - (T - 1)). split; [lia|]. replace (T - 1 + (v - (T - 1))) with v by lia. apply below_refl.
  - destruct (IH (PAPA v)) as (i & Hi & Hb); [apply papa_lt; lia|unfold PAPA; lia|]. exists i. split; [done|]. destruct (below_child _ _ Hb) as [B1 B2].
    destruct (child_cases v) as [E|E]; [lia| |]; by rewrite E.
Qed.

(** The array of a thread: the nodes below [r] and under the limit, each before its children. *)
Definition subOk (total r : nat) (s : list nat) : Prop :=
  (forall v, v ∈ s <-> v = r \/ below r v /\ v < total) /\ (forall k v, s !! k = Some v -> k = 0 /\ v = r \/ exists k', k' < k /\ s !! k' = Some (PAPA v) /\ r < v)
  /\ forall i j v w, i < j -> s !! i = Some v -> s !! j = Some w -> v < w.
Lemma genSub_sub total r : 0 < total -> exists s, genSub total r = Some s /\ subOk total r s.
Proof.
  intros Ht. destruct (genSub_ok total r Ht) as (L & HL & E & H1 & H2). exists (map (bfs r) (seq 0 L)). split; [done|]. assert (forall k v, map (bfs r) (seq 0 L) !! k = Some v -> k < L /\ v = bfs r k) as Hk.
  { intros k v Hk. rewrite list_lookup_fmap in Hk. destruct (decide (k < L)) as [Hlt|Hlt]; [|by rewrite lookup_seq_ge in Hk by lia]. rewrite lookup_seq_lt in Hk by done. by injection Hk as <-. }
  split; [|split].
  - intros v. rewrite elem_of_list_fmap. split.
    + intros (j & -> & Hj%elem_of_seq). destruct (decide (j = 0)) as [-> |]; [by left|]. right. split; [by exists j|apply H1; lia].
    + intros [-> |[[j <-] Hv]]; [exists 0; split; [done|apply elem_of_seq; lia]|]. exists j. split; [done|]. apply elem_of_seq. split; [lia|].
      destruct (decide (j < L)); [lia|]. exfalso. assert (bfs r L <= bfs r j); [|lia]. destruct (decide (j = L)) as [-> |]; [done|]. apply Nat.lt_le_incl, bfs_mono. lia.
  - intros k v [Hlt ->]%Hk. destruct (decide (k = 0)) as [-> |Hne]; [left; done|]. right. exists (PAPA k). pose proof (papa_lt k). split; [lia|]. split.
    + rewrite list_lookup_fmap, lookup_seq_lt by lia. cbn [fmap option_fmap option_map]. f_equal. change (0 + PAPA k) with (PAPA k). rewrite (bfs_step r k) by lia. destruct (_ =? 1); [by rewrite papa_left|by rewrite papa_right].
    + pose proof (bfs_mono r 0 k). rewrite bfs_0 in *. lia.
  - intros i j v w Hij [Hi ->]%Hk [Hj ->]%Hk. by apply bfs_mono.
Qed.
Lemma genSubs_ok T total first : 0 < total -> exists subs, genSubs T total first = Some subs /\ length subs = T /\ forall i s, subs !! i = Some s -> i < T /\ subOk total (first + i) s.
Proof.
  intros Ht. unfold genSubs. destruct (mapM (fun i => genSub total (first + i)) (seq 0 T)) as [subs|] eqn:E.
  - exists subs. split; [done|]. apply mapM_Some in E. split; [by apply Forall2_length in E; rewrite seq_length in E|]. intros i s Hs.
    destruct (Forall2_lookup_r _ _ _ _ _ E Hs) as (j & Hj & Hg). assert (i < T) as Hi. { apply lookup_lt_Some in Hj. by rewrite seq_length in Hj. }
    rewrite lookup_seq_lt in Hj by done. injection Hj as <-. split; [done|]. destruct (genSub_sub total (first + i) Ht) as (s' & E' & Hok). cbn in Hg. rewrite E' in Hg. by injection Hg as <-.
  - exfalso. apply mapM_None in E. apply Exists_exists in E as (i & _ & E). cbn in E. destruct (genSub_sub total (first + i) Ht) as (s & E' & _). congruence.
Qed.

(** * Interleavings *)

(** [pre v] are the nodes that a step at [v] needs. [ready D ops]: each step finds them in [D] or among the steps before it. *)
Fixpoint ready (pre : nat -> list nat) (D : nat -> Prop) (ops : list nat) : Prop :=
  match ops with [] => True | v :: ops' => (forall c, c ∈ pre v -> D c) /\ ready pre (fun c => D c \/ c = v) ops' end.
Lemma ready_mono pre (D D' : nat -> Prop) ops : (forall c, D c -> D' c) -> ready pre D ops -> ready pre D' ops.
Proof.
  revert D D'. induction ops as [|v ops IH]; intros D D' H; [done|]. cbn. intros [H1 H2]. split; [auto|]. eapply IH; [|exact H2]. cbn. naive_solver.
Qed.
Lemma ready_app pre D l1 l2 : ready pre D l1 -> ready pre (fun c => D c \/ c ∈ l1) l2 -> ready pre D (l1 ++ l2).
Proof.
  revert D. induction l1 as [|v l1 IH]; intros D H1 H2; cbn; [eapply ready_mono; [|exact H2]; cbn; intros c [H|H]; [done|by apply elem_of_nil in H]|].
  cbn in H1. destruct H1 as [H1 H1']. split; [done|]. apply IH; [done|]. eapply ready_mono; [|exact H2]. cbn. intros c. rewrite elem_of_cons. naive_solver.
Qed.
Lemma interleave_ready pre sched : forall ths D, Forall (ready pre D) ths -> ready pre D (interleave sched ths).
Proof.
  induction sched as [|t sched IH]; intros ths D H; cbn [interleave].
  - revert D H. induction ths as [|th ths IH]; intros D H; [done|]. cbn. apply Forall_cons in H as [H1 H2]. apply ready_app; [done|]. apply IH. eapply Forall_impl; [exact H2|].
    cbn. intros l Hl. eapply ready_mono; [|exact Hl]. cbn. by left.
  - destruct (ths !! t) as [[|v th]|] eqn:E; [by apply IH| |by apply IH]. cbn [ready]. pose proof (Forall_lookup_1 _ _ _ _ H E) as [H1 H2]. split; [done|]. apply IH.
    apply Forall_insert; [|done]. eapply Forall_impl; [exact H|]. cbn. intros l Hl. eapply ready_mono; [|exact Hl]. cbn. by left.
Qed.
Lemma interleave_perm sched : forall ths, interleave sched ths ≡ₚ concat ths.
Proof.
  induction sched as [|t sched IH]; intros ths; cbn [interleave]; [done|]. destruct (ths !! t) as [[|v th]|] eqn:E; [done| |done]. rewrite IH.
  assert (t < length ths) as Ht by by eapply lookup_lt_Some. rewrite <- (take_drop_middle ths t (v :: th) E) at 2. rewrite insert_take_drop by done.
  rewrite !concat_app. cbn. by rewrite Permutation_middle.
Qed.

(** The array of a thread forwards: parents first. *)
Lemma sub_forward total r s (D : nat -> Prop) : subOk total r s -> D (PAPA r) -> ready (fun v => [PAPA v]) D s.
Proof.
  intros (_ & H & _) HD. assert (forall l2 l1, s = l1 ++ l2 -> ready (fun v => [PAPA v]) (fun c => D c \/ c ∈ l1) l2) as Hs.
  { induction l2 as [|v l2 IH]; intros l1 E; [done|]. cbn. split.
    - intros c ->%elem_of_list_singleton. destruct (H (length l1) v) as [[E1 ->]|(k' & Hk' & Hl & _)]; [rewrite E; by rewrite lookup_app_r, Nat.sub_diag by lia|by left|].
      right. rewrite E, lookup_app_l in Hl by done. by eapply elem_of_list_lookup_2.
    - specialize (IH (l1 ++ [v])). eapply ready_mono; [|apply IH; by rewrite <- app_assoc]. cbn. intros c. rewrite elem_of_app, elem_of_list_singleton. naive_solver. }
  specialize (Hs s []). eapply ready_mono; [|by apply Hs]. cbn. intros c [Hc|Hc]; [done|by apply elem_of_nil in Hc].
Qed.
(** Backwards: children first. [D] holds from the limit on. *)
Lemma sub_backward total r s (D : nat -> Prop) : subOk total r s -> r < total -> (forall c, total <= c -> D c) -> ready (fun v => [LEFT v; RIGHT v]) D (rev s).
Proof.
  intros (Hm & _ & Hs) Hr HD. assert (forall l2 l1, rev s = l1 ++ l2 -> ready (fun v => [LEFT v; RIGHT v]) (fun c => D c \/ c ∈ l1) l2) as Hq.
  { induction l2 as [|v l2 IH]; intros l1 E; [done|]. assert (s = rev l2 ++ v :: rev l1) as E'.
    { rewrite <- (rev_involutive s), E, rev_app_distr. cbn. by rewrite <- app_assoc. }
    cbn. split.
    - intros c Hc. assert (v < c) as Hvc by (apply elem_of_cons in Hc as [-> |Hc%elem_of_list_singleton]; [|subst c]; unfold LEFT, RIGHT; lia).
      destruct (decide (total <= c)) as [Hge|Hge]; [left; by apply HD|]. assert (c ∈ s) as Hcs.
      { apply Hm. right. split; [|lia]. assert (below r v) as Hb. { assert (v ∈ s) as Hv by (rewrite E'; apply elem_of_app; right; left). apply Hm in Hv as [-> |[? _]]; [apply below_refl|done]. }
        destruct (below_child _ _ Hb). apply elem_of_cons in Hc as [-> |Hc%elem_of_list_singleton]; [done|by subst c]. }
      right. rewrite E' in Hcs. apply elem_of_app in Hcs as [Hcs|Hcs].
      + exfalso. apply elem_of_list_lookup in Hcs as [i Hi]. pose proof (lookup_lt_Some _ _ _ Hi) as Hlt. assert (c < v); [|lia]. apply (Hs i (length (rev l2)) c v Hlt).
        * rewrite E'. by rewrite lookup_app_l.
        * rewrite E'. by rewrite lookup_app_r, Nat.sub_diag.
      + apply elem_of_cons in Hcs as [-> |Hcs]; [lia|]. apply elem_of_list_In, in_rev. by apply elem_of_list_In.
    - specialize (IH (l1 ++ [v])). eapply ready_mono; [|apply IH; by rewrite <- app_assoc]. cbn. intros c. rewrite elem_of_app, elem_of_list_singleton. naive_solver. }
  specialize (Hq (rev s) []). eapply ready_mono; [|by apply Hq]. cbn. intros c [Hc|Hc]; [done|by apply elem_of_nil in Hc].
Qed.

(** * Runs of steps *)
Section runs.
Context {K : fops}.
Notation poly := (list (fT K)).
Context (step : list poly -> nat -> outcome (list poly)) (size : nat) (pre : nat -> list nat) (valid : nat -> Prop) (ok post : nat -> poly -> Prop).
Definition holds (Q : nat -> poly -> Prop) (arr : list poly) (c : nat) : Prop := exists q, arr !! c = Some q /\ Q c q.
Context (Hvalid : forall v, valid v -> v < size) (Hpost : forall v p, post v p -> ok v p)
  (Hstep : forall arr v, length arr = size -> valid v -> (forall c, c ∈ pre v -> c < size -> holds ok arr c) -> exists p, step arr v = Done (<[v := p]> arr) /\ post v p).

Lemma runOps_ok ops : forall (D : nat -> Prop) (E : nat -> Prop) arr, length arr = size -> ready pre D ops -> Forall valid ops ->
  (forall c, D c -> c < size -> holds ok arr c) -> (forall c, E c -> c < size -> holds post arr c) ->
  exists arr', runOps K step ops arr = Done arr' /\ length arr' = size /\ (forall c, D c -> c < size -> holds ok arr' c) /\ (forall c, E c \/ c ∈ ops -> c < size -> holds post arr' c).
Proof using Hvalid Hpost Hstep.
  induction ops as [|v ops IH]; intros D E arr Hl Hr Hv HD HE; cbn [runOps].
  - exists arr. split; [done|]. split; [done|]. split; [done|]. intros c [Hc|Hc]; [by apply HE|by apply elem_of_nil in Hc].
  - apply Forall_cons in Hv as [Hv Hvs]. cbn in Hr. destruct Hr as [Hr1 Hr2]. destruct (Hstep arr v Hl Hv) as (p & Ep & Hp); [intros c Hc Hs; apply HD; [by apply Hr1|done]|]. rewrite Ep.
    assert (forall (Q : nat -> poly -> Prop) c, c < size -> (c = v -> Q c p) -> (c <> v -> holds Q arr c) -> holds Q (<[v := p]> arr) c) as Hins.
    { intros Q c Hc H1 H2. destruct (decide (c = v)) as [-> |Hne]; [exists p; rewrite list_lookup_insert by (rewrite Hl; by apply Hvalid); naive_solver|].
      destruct (H2 Hne) as (q & Hq & HQ). exists q. by rewrite list_lookup_insert_ne. }
    destruct (IH (fun c => D c \/ c = v) (fun c => E c \/ c = v) (<[v := p]> arr)) as (arr' & E1 & E2 & E3 & E4).
    + by rewrite insert_length.
    + done.
    + done.
    + intros c Hc Hs. apply Hins; [done|intros ->; by apply Hpost|]. intros Hne. destruct Hc as [Hc|Hc]; [by apply HD|done].
    + intros c Hc Hs. apply Hins; [done|intros ->; done|]. intros Hne. destruct Hc as [Hc|Hc]; [by apply HE|done].
    + exists arr'. split; [done|]. split; [done|]. split; [intros c Hc; apply E3; by left|]. intros c Hc. apply E4. rewrite elem_of_cons in Hc. naive_solver.
Qed.
End runs.

Lemma concat_singles {A} (l : list A) : concat (map (fun j => [j]) l) = l.
Proof. induction l as [|a l IH]; [done|]. cbn. by rewrite IH. Qed.
Lemma level_perm sch i : interleave sch (map (fun j => [j]) (levelNodes i)) ≡ₚ levelNodes i.
Proof. rewrite interleave_perm. by rewrite concat_singles. Qed.
Lemma level_in sch i v : v ∈ interleave sch (map (fun j => [j]) (levelNodes i)) <-> 2 ^ i - 1 <= v <= 2 ^ S i - 2.
Proof. rewrite level_perm. unfold levelNodes. rewrite elem_of_seq. assert (0 < 2 ^ i) by (apply Nat.neq_0_lt_0, Nat.pow_nonzero; lia). cbn. lia. Qed.
Lemma level_ready pre (D : nat -> Prop) sch i : (forall v c, 2 ^ i - 1 <= v <= 2 ^ S i - 2 -> c ∈ pre v -> D c) -> ready pre D (interleave sch (map (fun j => [j]) (levelNodes i))).
Proof.
  intros H. apply interleave_ready. apply Forall_forall. intros l Hl. apply elem_of_list_fmap in Hl as (v & -> & Hv). cbn. split; [|done]. intros c Hc. apply (H v c); [|done].
  unfold levelNodes in Hv. apply elem_of_seq in Hv. assert (0 < 2 ^ i) by (apply Nat.neq_0_lt_0, Nat.pow_nonzero; lia). cbn. lia.
Qed.

(** * The tree as a data structure *)
Inductive bt := Lf (i : nat) | Nd (l r : bt).
Fixpoint leaves (t : bt) : list nat := match t with Lf i => [i] | Nd l r => leaves l ++ leaves r end.
Inductive heap (n : nat) : nat -> bt -> Prop :=
| heap_leaf v : n - 1 <= v < 2 * n - 1 -> heap n v (Lf (v - (n - 1)))
| heap_node v l r : v < n - 1 -> heap n (LEFT v) l -> heap n (RIGHT v) r -> heap n v (Nd l r).
Lemma heap_exists n v : v < 2 * n - 1 -> exists t, heap n v t.
Proof.
  intros Hv. remember (2 * n - 1 - v) as k eqn:Ek. revert v Hv Ek. induction k as [k IH] using lt_wf_ind. intros v Hv Ek. destruct (decide (n - 1 <= v)) as [H|H].
  - eexists. by constructor.
  - destruct (IH (2 * n - 1 - LEFT v)) with (v := LEFT v) as [l Hl]; [unfold LEFT; lia..|]. destruct (IH (2 * n - 1 - RIGHT v)) with (v := RIGHT v) as [r Hr]; [unfold RIGHT; lia..|].
    eexists. constructor; [lia|done|done].
Qed.
Lemma heap_det n v t : heap n v t -> forall t', heap n v t' -> t = t'.
Proof.
  induction 1 as [v Hv|v l r Hv H1 IH1 H2 IH2]; intros t' Ht'; inversion Ht' as [v' Hv' E1 E2|v' l' r' Hv' Hl' Hr' E1 E2]; subst; try lia; [done|]. f_equal; auto.
Qed.
Lemma heap_lt n v t : heap n v t -> v < 2 * n - 1.
Proof. inversion 1; lia. Qed.
Lemma heap_leaves n v t : heap n v t -> forall i, i ∈ leaves t <-> i < n /\ below v (n - 1 + i).
Proof.
  induction 1 as [v Hv|v l r Hv H1 IH1 H2 IH2]; intros i; cbn [leaves].
  - rewrite elem_of_list_singleton. split.
    + intros ->. split; [lia|]. replace (n - 1 + (v - (n - 1))) with v by lia. apply below_refl.
    + intros [Hi [j Hj]]. destruct (decide (j = 0)) as [-> |Hne]; [rewrite bfs_0 in Hj; lia|]. exfalso. rewrite bfs_step in Hj by lia. pose proof (bfs_ge v (PAPA j)).
      destruct (_ =? 1); unfold LEFT, RIGHT in Hj; lia.
  - rewrite elem_of_app, IH1, IH2. split.
    + assert (forall c, c = LEFT v \/ c = RIGHT v -> forall w, below c w -> below v w) as Hc.
      { intros c Hc w [j <-]. induction j as [j IH] using lt_wf_ind. destruct (decide (j = 0)) as [-> |Hj].
        - rewrite bfs_0. destruct (below_child v v (below_refl v)). by destruct Hc; subst.
        - rewrite bfs_step by lia. destruct (below_child v (bfs c (PAPA j))); [apply IH, papa_lt; lia|]. by destruct (_ =? 1). }
      intros [[Hi Hb]|[Hi Hb]]; (split; [done|]); eapply Hc; [by left|done|by right|done].
    + intros [Hi Hb]. assert (v < n - 1 + i) as Hlt by lia. clear IH1 IH2 H1 H2.
      assert (forall w, v < w -> below v w -> below (LEFT v) w \/ below (RIGHT v) w) as Hw.
      { clear. induction w as [w IH] using lt_wf_ind. intros Hw Hb. pose proof (below_papa _ _ Hb Hw) as Hp. destruct (decide (PAPA w = v)) as [E|E].
        - destruct (child_cases w) as [Ec|Ec]; [lia| |]; rewrite E in Ec; subst w; [left|right]; apply below_refl.
        - pose proof (below_ge _ _ Hp). destruct (IH (PAPA w)) as [H'|H']; [apply papa_lt; lia|lia|done| |]; destruct (below_child _ _ H') as [B1 B2]; [left|right]; (destruct (child_cases w) as [Ec|Ec]; [lia| |]); by rewrite Ec. }
      destruct (Hw _ Hlt Hb); [left|right]; done.
Qed.
Lemma below_lr v w : below (LEFT v) w -> below (RIGHT v) w -> False.
Proof.
  induction w as [w IH] using lt_wf_ind. intros H1 H2. pose proof (below_ge _ _ H1) as G1. pose proof (below_ge _ _ H2) as G2. destruct (decide (w = RIGHT v)) as [-> |Hne].
  - apply below_papa in H1; [|unfold LEFT, RIGHT; lia]. rewrite papa_right in H1. apply below_ge in H1. unfold LEFT in H1. lia.
  - apply (IH (PAPA w)); [apply papa_lt; unfold RIGHT in *; lia|apply below_papa; [done|]|apply below_papa; [done|]]; unfold LEFT, RIGHT in *; lia.
Qed.
Lemma heap_nodup n v t : heap n v t -> NoDup (leaves t).
Proof.
  induction 1 as [v Hv|v l r Hv H1 IH1 H2 IH2]; cbn [leaves]; [apply NoDup_singleton|]. apply NoDup_app. split; [done|]. split; [|done].
  intros i Hi Hi'. apply (heap_leaves _ _ _ H1) in Hi as [_ Hi]. apply (heap_leaves _ _ _ H2) in Hi' as [_ Hi']. by eapply below_lr.
Qed.
Lemma root_leaves n t : heap n 0 t -> leaves t ≡ₚ seq 0 n.
Proof.
  intros H. apply stdpp.list.NoDup_Permutation; [by eapply heap_nodup|apply NoDup_seq|]. intros i. rewrite (heap_leaves _ _ _ H), elem_of_seq. split; [lia|]. intros Hi. split; [lia|].
  destruct (below_cover 1 (n - 1 + i)) as (k & Hk & Hb); [lia|lia|]. by replace (1 - 1 + k) with 0 in Hb by lia.
Qed.
