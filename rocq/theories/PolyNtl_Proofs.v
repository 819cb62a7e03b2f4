(** Proofs about polyNTL. *)
From Verif Require Import Base PolyTree_Model PolyTree_Spec PolyTree_Proofs PolyTree_Proofs2 Prty_Model Prty_Spec Prty_Proofs PolyNtl_Model PolyNtl_Spec.
From Coq Require Import Field.
Local Open Scope nat_scope.

Section algebra.
Context (K : fops) (HK : isField K).
Let FT : field_theory (f0 K) (f1 K) (fadd K) (fmul K) (fsub K) (fopp K) (fun a b => fmul K a (finv K b)) (finv K) eq := proj1 HK.
Add Field KF : FT.
Notation ev := (evalAt K).

Lemma horner_ev p x : horner K p x = ev p x.
Proof using HK FT. unfold horner. induction p as [|a p IH]; [done|]. cbn [foldr evalAt]. rewrite IH. ring. Qed.

(** The state of NTL's loop after the points [dn]. *)
Definition newtonInv (dn : list (fT K * fT K)) (prod res : list (fT K)) : Prop :=
  monic K prod (length dn) /\ (forall x, ev prod x = f0 K <-> x ∈ map fst dn) /\ length res <= length dn /\ (forall x y, (x, y) ∈ dn -> ev res x = y).
Lemma ev_linear a x : ev [fopp K a; f1 K] x = fsub K x a.
Proof using HK FT. cbn. ring. Qed.
Lemma linear_monic a : monic K [fopp K a; f1 K] 1.
Proof. by exists [fopp K a]. Qed.
Lemma newton_step dn prod res a b : newtonInv dn prod res -> a ∉ map fst dn ->
  newtonInv (dn ++ [(a, b)]) (pmul K prod [fopp K a; f1 K]) (padd K res (pscale K (fmul K (finv K (horner K prod a)) (fsub K b (horner K res a))) prod)).
Proof using HK FT.
  intros (Hm & Hp & Hl & Hr) Ha. assert (ev prod a <> f0 K) as Hna by (intros E; by apply Hp in E). repeat split.
  - rewrite app_length. cbn. apply (pmul_monic K HK); [done|apply linear_monic].
  - intros E. rewrite (ev_mul K HK), ev_linear in E. apply (mul_zero K HK) in E as [E|E].
    + apply Hp in E. rewrite map_app, elem_of_app. by left.
    + apply (sub_zero K HK) in E. subst x. rewrite map_app, elem_of_app. right. cbn. by left.
  - intros E. rewrite (ev_mul K HK), ev_linear. rewrite map_app, elem_of_app in E. destruct E as [E|E].
    + apply Hp in E. rewrite E. ring.
    + cbn in E. apply elem_of_list_singleton in E. subst x. ring.
  - rewrite padd_length, pscale_length, (monic_length K _ _ Hm), app_length. cbn. lia.
  - intros x y Hin. rewrite (ev_add K HK), (ev_scale K HK), !horner_ev. apply elem_of_app in Hin as [Hin|Hin].
    + rewrite (Hr x y Hin). assert (ev prod x = f0 K) as ->; [|ring]. apply Hp. by apply (elem_of_list_fmap_1 fst) in Hin.
    + apply elem_of_list_singleton in Hin. injection Hin as -> ->. field. done.
Qed.
Lemma newton_ok pts : forall dn prod res, newtonInv dn prod res -> NoDup (map fst (dn ++ pts)) ->
  exists p, newton K pts prod res = Some p /\ normal K p /\ length p <= length (dn ++ pts) /\ forall x y, (x, y) ∈ dn ++ pts -> ev p x = y.
Proof using HK FT.
  induction pts as [|[a b] pts IH]; intros dn prod res Hi Hnd; cbn [newton].
  - rewrite app_nil_r in *. destruct Hi as (_ & _ & Hl & Hr). eexists. split; [done|]. split; [apply (norm_normal K HK)|]. split; [pose proof (norm_length K res); lia|].
    intros x y Hin. rewrite (ev_norm K HK). by apply Hr.
  - assert (a ∉ map fst dn) as Ha. { rewrite map_app in Hnd. apply NoDup_app in Hnd as (_ & Hnd & _). intros E. apply (Hnd a E). cbn. by left. }
    destruct (feqb K (horner K prod a) (f0 K)) eqn:E.
    + apply HK in E. rewrite horner_ev in E. by apply Hi in E.
    + rewrite (cons_middle _ _ pts), app_assoc in Hnd |- *. apply IH; [|done]. by apply newton_step.
Qed.
Lemma newton_dup pts : forall dn prod res, newtonInv dn prod res -> NoDup (map fst dn) -> ¬ NoDup (map fst (dn ++ pts)) -> newton K pts prod res = None.
Proof using HK FT.
  induction pts as [|[a b] pts IH]; intros dn prod res Hi Hd Hnd; cbn [newton].
  - by rewrite app_nil_r in Hnd.
  - destruct (feqb K (horner K prod a) (f0 K)) eqn:E; [done|].
    assert (a ∉ map fst dn) as Ha. { intros Ha. apply Hi in Ha. rewrite <- horner_ev in Ha. apply HK in Ha. congruence. }
    rewrite (cons_middle _ _ pts), app_assoc in Hnd. apply (IH (dn ++ [(a, b)])); [by apply newton_step| |done].
    rewrite map_app. apply NoDup_app. split; [done|]. split; [|cbn; apply NoDup_singleton]. intros x Hx Hx'. cbn in Hx'. apply elem_of_list_singleton in Hx'. by subst x.
Qed.
Lemma newton_start : newtonInv [] [f1 K] [].
Proof using HK FT.
  split; [by exists []|]. split; [|split; [done|intros x y H; by apply elem_of_nil in H]]. intros x. cbn. split; [|intros H; by apply elem_of_nil in H].
  intros E. destruct (F_1_neq_0 FT). rewrite <- E. ring.
Qed.
Lemma interpolate_ok xs ys : length xs = length ys -> NoDup xs ->
  exists p, interpolate K xs ys = Some p /\ normal K p /\ length p <= length xs /\ map (ev p) xs = ys.
Proof using HK FT.
  intros Hl Hnd. unfold interpolate. rewrite Hl, Nat.eqb_refl. assert (map fst (zip xs ys) = xs) as Ef by (apply fst_zip; lia).
  destruct (newton_ok (zip xs ys) [] _ _ newton_start) as (p & -> & Hn & Hlen & Hv); [cbn [app]; by rewrite Ef|]. exists p. split; [done|]. split; [done|].
  split; [cbn [app] in Hlen; rewrite zip_with_length in Hlen; lia|]. apply list_eq. intros i. rewrite list_lookup_fmap. destruct (xs !! i) as [x|] eqn:Ex; cbn.
  - assert (is_Some (ys !! i)) as [y Hy]. { apply lookup_lt_is_Some. rewrite <- Hl. by eapply lookup_lt_Some. } rewrite Hy. f_equal. apply Hv. cbn [app].
    apply elem_of_list_lookup. exists i. apply lookup_zip_with_Some. by exists x, y.
  - symmetry. apply lookup_ge_None. apply lookup_ge_None in Ex. lia.
Qed.
Lemma interpolate_dup xs ys : length xs = length ys -> ¬ NoDup xs -> interpolate K xs ys = None.
Proof using HK FT.
  intros Hl Hnd. unfold interpolate. rewrite Hl, Nat.eqb_refl. assert (map fst (zip xs ys) = xs) as Ef by (apply fst_zip; lia).
  apply (newton_dup _ []); [apply newton_start|constructor|]. cbn [app]. by rewrite Ef.
Qed.
Lemma ev_zeros p k x : ev (p ++ replicate k (f0 K)) x = ev p x.
Proof using HK FT. induction p as [|a p IH]; cbn [app evalAt]; [|by rewrite IH]. induction k as [|k IHk]; [done|]. cbn [replicate evalAt]. rewrite IHk. ring. Qed.

(** The polynomial with given roots. *)
Lemma roots_monic xs : monic K (fromRoots K xs) (length xs).
Proof using HK FT.
  unfold fromRoots. induction xs as [|a xs IH]; [by exists []|]. cbn [foldr length]. replace (S (length xs)) with (length xs + 1) by lia. apply (pmul_monic K HK); [done|apply linear_monic].
Qed.
Lemma roots_ev xs x : ev (fromRoots K xs) x = f0 K <-> x ∈ xs.
Proof using HK FT.
  unfold fromRoots. induction xs as [|a xs IH]; cbn [foldr].
  - cbn. split; [|intros H; by apply elem_of_nil in H]. intros E. destruct (F_1_neq_0 FT). rewrite <- E. ring.
  - rewrite (ev_mul K HK), ev_linear, elem_of_cons. split.
    + intros E. apply (mul_zero K HK) in E as [E|E]; [right; by apply IH|left]. by apply (sub_zero K HK) in E.
    + intros [-> |E]; [ring|]. apply IH in E. rewrite E. ring.
Qed.

(** Coefficients. *)
Definition coef (p : list (fT K)) (i : nat) : fT K := nth i p (f0 K).
Lemma coef_over p i : length p <= i -> coef p i = f0 K.
Proof. apply nth_overflow. Qed.
Lemma coef_add p q i : coef (padd K p q) i = fadd K (coef p i) (coef q i).
Proof using HK FT.
  unfold coef. revert q i. induction p as [|a p IH]; intros q i; [destruct q, i; cbn; ring|]. destruct q as [|b q]; [cbn [padd]; destruct i; cbn; ring|]. destruct i as [|i]; cbn [padd nth]; [done|]. apply IH.
Qed.
Lemma coef_scale c p i : coef (pscale K c p) i = fmul K c (coef p i).
Proof using HK FT. unfold coef, pscale. revert i. induction p as [|a p IH]; intros i; [destruct i; cbn; ring|]. destruct i as [|i]; cbn [map nth]; [done|]. apply IH. Qed.
Lemma coef_mul_cons c d q i : coef (pmul K (c :: d) q) i = fadd K (fmul K c (coef q i)) (match i with O => f0 K | S j => coef (pmul K d q) j end).
Proof using HK FT. cbn [pmul]. rewrite coef_add, coef_scale. by destruct i. Qed.
Lemma coef_norm p i : coef (norm K p) i = coef p i.
Proof using HK FT.
  revert i. induction p as [|a p IH]; intros i; [done|]. rewrite norm_cons. destruct (norm K p) as [|b q] eqn:E.
  - assert (forall j, coef p j = f0 K) as H. { intros j. rewrite <- IH. unfold coef. by destruct j. }
    destruct (feqb K a (f0 K)) eqn:Ea.
    + apply HK in Ea. subst a. destruct i as [|i]; [done|]. unfold coef in *. cbn [nth]. by rewrite H.
    + destruct i as [|i]; [done|]. unfold coef in *. cbn [nth]. rewrite H. by destruct i.
  - destruct i as [|i]; [done|]. unfold coef in *. cbn [nth]. rewrite <- IH. done.
Qed.
Lemma normal_ext p q : normal K p -> normal K q -> (forall i, coef p i = coef q i) -> p = q.
Proof using HK FT.
  assert (forall p q, normal K p -> (forall i, coef p i = coef q i) -> length p <= length q) as Hlen.
  { intros p' q' Hp' He. destruct p' as [|a p'] using rev_ind; [cbn; lia|]. clear IHp'. rewrite app_length. cbn [length]. destruct (le_lt_dec (length p' + 1) (length q')) as [|Hlt]; [done|].
    exfalso. apply (Hp' p' a); [done|]. specialize (He (length p')). rewrite (coef_over q') in He by lia. unfold coef in He. rewrite nth_middle in He. done. }
  intros Hp Hq He. assert (length p = length q) as Hl. { apply Nat.le_antisymm; [by apply Hlen|]. apply Hlen; [done|]. intros i. by rewrite He. }
  apply (nth_ext p q (f0 K) (f0 K)); [done|]. intros i _. apply He.
Qed.
Lemma norm_ext p q : (forall i, coef p i = coef q i) -> norm K p = norm K q.
Proof using HK FT. intros He. apply normal_ext; [apply (norm_normal K HK)..|]. intros i. rewrite !coef_norm. apply He. Qed.
Lemma ev_coef p q x : (forall i, coef p i = coef q i) -> ev p x = ev q x.
Proof using HK FT. intros He. rewrite <- (ev_norm K HK p), <- (ev_norm K HK q). by rewrite (norm_ext p q He). Qed.
Lemma monic_lead q n : monic K q n -> coef q n = f1 K.
Proof. intros (r & -> & <-). unfold coef. by rewrite nth_middle. Qed.

(** Division by a monic polynomial. *)
Lemma divide q n : monic K q n -> forall p, exists d r, length d = length p - n /\ length r <= n /\ forall i, coef p i = fadd K (coef (pmul K d q) i) (coef r i).
Proof using HK FT.
  intros Hq. induction p as [|a p IH].
  - exists [], []. split; [done|]. split; [cbn; lia|]. intros i. unfold coef. cbn. destruct i; ring.
  - destruct (le_lt_dec (length (a :: p)) n) as [Hle|Hlt].
    { exists [], (a :: p). split; [cbn in *; lia|]. split; [done|]. intros i. unfold coef at 2. cbn [pmul]. destruct i; cbn [nth]; ring. }
    destruct IH as (d & r & Hd & Hr & He). set (c := coef (a :: r) n). exists (c :: d), (take n (padd K (a :: r) (pscale K (fopp K c) q))).
    split; [cbn [length] in *; lia|]. split; [rewrite take_length; lia|]. intros i. rewrite coef_mul_cons.
    assert (coef (take n (padd K (a :: r) (pscale K (fopp K c) q))) i = fadd K (coef (a :: r) i) (fmul K (fopp K c) (coef q i))) as ->.
    { rewrite <- coef_scale, <- coef_add. set (s := padd K (a :: r) (pscale K (fopp K c) q)). destruct (le_lt_dec n i) as [Hi|Hi].
      - rewrite coef_over by (rewrite take_length; lia). symmetry. unfold s. rewrite coef_add, coef_scale. destruct (Nat.eq_dec i n) as [->|Hne].
        + rewrite (monic_lead q n Hq). unfold c. ring.
        + rewrite (coef_over (a :: r)) by (cbn; lia). rewrite (coef_over q) by (rewrite (monic_length K _ _ Hq); lia). ring.
      - unfold coef. rewrite <- (take_drop n s) at 2. destruct (le_lt_dec (length s) i) as [Hs|Hs]; [rewrite !nth_overflow; [done|rewrite take_drop; lia|rewrite take_length; lia]|].
        rewrite app_nth1; [done|]. rewrite take_length. lia. }
    destruct i as [|i].
    + unfold coef at 1 3. cbn [nth]. ring.
    + unfold coef at 1 4. cbn [nth]. fold (coef p i). fold (coef r i). rewrite He. ring.
Qed.
(** A product with a monic polynomial determines the other factor. *)
Lemma mul_lead d q n : monic K q n -> d <> [] -> coef (pmul K d q) (length d - 1 + n) = coef d (length d - 1).
Proof using HK FT.
  intros Hq Hd. induction d as [|c d IH]; [done|]. destruct d as [|c' d].
  - cbn [length]. replace (1 - 1 + n) with n by lia. rewrite coef_mul_cons, (monic_lead q n Hq). unfold coef. cbn. destruct n as [|n]; [ring|]. destruct n; ring.
  - specialize (IH ltac:(done)). cbn [length] in *. replace (S (S (length d)) - 1 + n) with (S (S (length d) - 1 + n)) by lia. rewrite coef_mul_cons, IH.
    rewrite (coef_over q) by (rewrite (monic_length K _ _ Hq); lia). replace (S (S (length d)) - 1) with (S (S (length d) - 1)) by lia. unfold coef. cbn [nth]. ring.
Qed.
Lemma mul_zero_factor d q n : monic K q n -> (forall i, coef (pmul K d q) i = f0 K) -> forall i, coef d i = f0 K.
Proof using HK FT.
  intros Hq Hz. remember (length d) as k eqn:Ek. revert d Hz Ek. induction k as [|k IH]; intros d Hz Ek i.
  - destruct d; [unfold coef; by destruct i|done].
  - assert (d <> []) as Hd by (intros ->; done). pose proof (mul_lead d q n Hq Hd) as Hl. rewrite Hz in Hl.
    destruct d as [|a d _] using rev_ind; [done|]. rewrite app_length in Hl, Ek. cbn [length] in Hl, Ek. replace (length d + 1 - 1) with (length d) in Hl by lia. unfold coef in Hl. rewrite nth_middle in Hl. subst a.
    assert (forall j, coef (d ++ [f0 K]) j = coef d j) as Hc. { intros j. unfold coef. destruct (le_lt_dec (length d) j) as [Hj|Hj]; [|by rewrite app_nth1]. rewrite app_nth2 by done. rewrite (nth_overflow d) by done. destruct (j - length d) as [|[|]]; done. }
    rewrite Hc. apply IH; [|lia]. intros j. rewrite <- (Hz j). clear -HK FT. revert j. induction d as [|c d IH']; intros j.
    + cbn [app]. rewrite coef_mul_cons. unfold coef. cbn. destruct j as [|j]; [ring|destruct j; ring].
    + cbn [app]. rewrite !coef_mul_cons. destruct j as [|j]; [done|]. by rewrite IH'.
Qed.
Lemma coef_nil q i : coef (pmul K [] q) i = f0 K.
Proof. unfold coef. cbn. by destruct i. Qed.
Lemma coef_mul_sub d d' q i : coef (pmul K (padd K d (pscale K (fopp K (f1 K)) d')) q) i = fsub K (coef (pmul K d q) i) (coef (pmul K d' q) i).
Proof using HK FT.
  revert d' i. induction d as [|c d IH]; intros d' i.
  - cbn [padd]. rewrite coef_nil. revert i. induction d' as [|c' d' IH']; intros i; [cbn [pscale map]; rewrite coef_nil; ring|]. cbn [pscale map]. rewrite !coef_mul_cons. destruct i as [|i]; [ring|].
    fold (pscale K (fopp K (f1 K)) d'). rewrite IH'. ring.
  - destruct d' as [|c' d'].
    + change (padd K (c :: d) (pscale K (fopp K (f1 K)) [])) with (c :: d). rewrite coef_nil. ring.
    + cbn [pscale map padd]. fold (pscale K (fopp K (f1 K)) d'). rewrite !coef_mul_cons. destruct i as [|i]; [ring|]. rewrite IH. ring.
Qed.
Lemma factor_unique d d' q n : monic K q n -> length d = length d' -> (forall i, coef (pmul K d q) i = coef (pmul K d' q) i) -> d = d'.
Proof using HK FT.
  intros Hq Hl He. apply (nth_ext d d' (f0 K) (f0 K)); [done|]. intros i _. fold (coef d i). fold (coef d' i).
  assert (coef (padd K d (pscale K (fopp K (f1 K)) d')) i = f0 K) as H. { apply (mul_zero_factor _ q n Hq). intros j. rewrite coef_mul_sub, He. ring. }
  rewrite coef_add, coef_scale in H. apply (sub_zero K HK). rewrite <- H. ring.
Qed.
Lemma coef_mul_norm d q i : coef (pmul K (norm K d) q) i = coef (pmul K d q) i.
Proof using HK FT.
  revert i. induction d as [|c d IH]; intros i; [done|]. rewrite norm_cons. rewrite (coef_mul_cons c d). destruct (norm K d) as [|b p] eqn:E.
  - assert (forall j, coef (pmul K d q) j = f0 K) as H. { intros j. rewrite <- IH. unfold coef. by destruct j. }
    destruct (feqb K c (f0 K)) eqn:Ec.
    + apply HK in Ec. subst c. unfold coef at 1. cbn [pmul nth]. destruct i as [|i]; [ring|]. rewrite H. ring.
    + rewrite coef_mul_cons. destruct i as [|i]; [done|]. rewrite H. unfold coef. cbn. by destruct i.
  - rewrite coef_mul_cons. destruct i as [|i]; [done|]. by rewrite IH.
Qed.

(** The polynomials of [n + k] coefficients through [n] points are the sums of one of them and a multiple of the polynomial of the roots. *)
Lemma through_param xs p q k : NoDup xs -> length p <= length xs + k -> length q <= length xs + k -> normal K q -> (forall x, x ∈ xs -> ev p x = ev q x) ->
  exists d, length d = k /\ norm K (padd K p (pmul K (norm K d) (fromRoots K xs))) = q /\
    forall d', length d' = k -> norm K (padd K p (pmul K (norm K d') (fromRoots K xs))) = q -> d' = d.
Proof using HK FT.
  intros Hnd Hp Hq Nq He. pose proof (roots_monic xs) as Hm. set (D := padd K q (pscale K (fopp K (f1 K)) p)).
  set (D' := D ++ replicate (length xs + k - length D) (f0 K)).
  assert (length D <= length xs + k) as HD by (unfold D; rewrite padd_length, pscale_length; lia).
  assert (forall i, coef D' i = coef D i) as HcD. { intros i. unfold D', coef. destruct (le_lt_dec (length D) i) as [Hi|Hi]; [|by rewrite app_nth1]. rewrite app_nth2 by done. rewrite (nth_overflow D) by done.
    destruct (nth_in_or_default (i - length D) (replicate (length xs + k - length D) (f0 K)) (f0 K)) as [H|H]; [|done]. apply elem_of_list_In, elem_of_replicate in H. tauto. }
  destruct (divide _ _ Hm D') as (d & r & Hd & Hr & Hdiv). assert (length d = k) as Hdk. { rewrite Hd. unfold D'. rewrite app_length, replicate_length. lia. }
  assert (forall x, ev D' x = fadd K (ev (pmul K d (fromRoots K xs)) x) (ev r x)) as Hev. { intros x. rewrite <- (ev_add K HK). apply ev_coef. intros i. by rewrite coef_add. }
  assert (Forall (fun a => a = f0 K) r) as Hz.
  { apply (roots_zero K HK xs); [done|done|]. intros x Hx. specialize (Hev x). rewrite (ev_mul K HK) in Hev. rewrite (proj2 (roots_ev xs x) Hx) in Hev.
    rewrite (ev_coef D' D x HcD) in Hev. unfold D in Hev. rewrite (ev_add K HK), (ev_scale K HK), (He x Hx) in Hev. transitivity (fadd K (ev q x) (fmul K (fopp K (f1 K)) (ev q x))); [|ring]. rewrite Hev. ring. }
  assert (forall i, coef r i = f0 K) as Hrz. { intros i. unfold coef. destruct (nth_in_or_default i r (f0 K)) as [H|H]; [|done]. rewrite Forall_forall in Hz. apply Hz. by apply elem_of_list_In. }
  assert (forall i, coef (pmul K d (fromRoots K xs)) i = fsub K (coef q i) (coef p i)) as Hprod.
  { intros i. transitivity (coef D' i); [rewrite Hdiv, Hrz; ring|]. rewrite HcD. unfold D. rewrite coef_add, coef_scale. ring. }
  exists d. split; [done|]. split.
  - apply normal_ext; [apply (norm_normal K HK)|done|]. intros i. rewrite coef_norm, coef_add, coef_mul_norm, Hprod. ring.
  - intros d' Hd' E. apply (factor_unique d' d (fromRoots K xs) (length xs)); [done|lia|]. intros i. rewrite Hprod. subst q. rewrite coef_norm, coef_add, coef_mul_norm. ring.
Qed.
End algebra.
