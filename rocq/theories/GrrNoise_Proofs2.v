(** The announced loads of GRR18. *)
From Coq Require Import Reals Lra Psatz.
From Verif Require Import Base Grr18_Model Grr18_Proofs GrrNoise_Model GrrNoise_Spec GrrNoise_Proofs.
Local Open Scope R_scope.
Local Opaque ints.

(** ** Events *)
Lemma computeLoads_ok c noise sizes ls : length ls = length sizes ->
  (forall i s l, sizes !! i = Some s -> ls !! i = Some l -> binLoad c (noise i) s = Done l) -> exists tot, computeLoads c noise sizes = Done (ls, tot).
Proof.
  intros L H. unfold computeLoads.
  assert (forall k, (k <= length sizes)%nat -> exists tot,
    foldl (fun o i => andThen o (loadStep c noise sizes i)) (Done ([], 0%N)) (seq 0 k) = Done (take k ls, tot)) as G.
  { induction k as [|k IH]; intros Hk; [by exists 0%N|]. destruct (IH ltac:(lia)) as [tot E]. rewrite seq_S, foldl_app, E. cbn [foldl andThen Nat.add].
    destruct (lookup_lt_is_Some_2 sizes k ltac:(lia)) as [s Es]. destruct (lookup_lt_is_Some_2 ls k ltac:(lia)) as [l El].
    unfold loadStep. rewrite Es, (H k s l Es El). cbn [fst snd]. rewrite (take_S_r _ _ _ El). eauto. }
  destruct (G (length sizes) ltac:(lia)) as [tot E]. exists tot. rewrite E. by rewrite take_ge by lia.
Qed.
Definition goodLoads (c : loadCfg) (sizes : list N) (vs : list Z) (ls : list N) : Prop :=
  length ls = length sizes /\ forall i s v l, sizes !! i = Some s -> vs !! i = Some v -> ls !! i = Some l -> binLoad c (v - Z.of_N s)%Z s = Done l.
Lemma loadsIn_iff c sizes E vs : length vs = length sizes -> loadsIn c sizes E vs = true <-> exists ls, goodLoads c sizes vs ls /\ E ls = true.
Proof.
  intros LV. unfold loadsIn. set (noise := fun i => _). split.
  - destruct (computeLoads c noise sizes) as [[ls tot]| | |] eqn:EC; try done. intros HE. exists ls. split; [|done].
    destruct (computeLoads_done _ _ _ _ _ EC) as (L & B & _). split; [done|]. intros i s v l Hs Hv Hl. rewrite <- (B i s l Hs Hl). unfold noise. by rewrite Hs, Hv.
  - intros (ls & (L & B) & HE). destruct (computeLoads_ok c noise sizes ls L) as [tot ->]; [|done]. intros i s l Hs Hl.
    destruct (lookup_lt_is_Some_2 vs i) as [v Hv]; [rewrite LV; by eapply lookup_lt_Some|]. unfold noise. rewrite Hs, Hv. cbn. by apply (B i s v l).
Qed.
Lemma loadsIn_one c pre s s' post E vs v ws : length vs = length pre -> length ws = length post ->
  (forall l, binLoad c (v - Z.of_N s)%Z s = Done l -> binLoad c (v - Z.of_N s')%Z s' = Done l) ->
  loadsIn c (pre ++ s :: post) E (vs ++ v :: ws) = true -> loadsIn c (pre ++ s' :: post) E (vs ++ v :: ws) = true.
Proof.
  intros Lv Lw HB. rewrite !loadsIn_iff by (rewrite !app_length; cbn; lia). intros (ls & (L & B) & HE). exists ls. split; [|done].
  split; [rewrite L, !app_length; done|]. intros i t u l Ht Hu Hl. destruct (decide (i = length pre)) as [->|Hi].
  - rewrite lookup_app_r, Nat.sub_diag in Ht by lia. injection Ht as <-. pose proof Hu as Hu'. rewrite lookup_app_r, Lv, Nat.sub_diag in Hu' by lia. injection Hu' as <-.
    apply HB. apply (B (length pre)); [by rewrite lookup_app_r, Nat.sub_diag by lia|done..].
  - apply (B i); [|done..]. destruct (decide (i < length pre)%nat); [by rewrite lookup_app_l in * by lia|].
    rewrite lookup_app_r in * by lia. destruct (i - length pre)%nat eqn:E0; [lia|]. exact Ht.
Qed.

(** ** Laws of the noisy values *)
Lemma lap_law eps base : 0 < eps -> isLaw (convLaw (lapCdf eps) base).
Proof. intros He. apply conv_law; [by apply lap_bound|by apply lap_le]. Qed.
Lemma ex_law eps base : 0 < eps -> isLaw (convLaw (expCdf eps) base).
Proof. intros He. apply conv_law; [by apply ex_bound|by apply ex_le]. Qed.
Lemma sizes_laws F off sizes : (forall base, isLaw (convLaw F base)) -> Forall isLaw (map (fun s => convLaw F (sizeR s + off)) sizes).
Proof. intros H. apply Forall_forall. intros x Hx. apply elem_of_list_fmap in Hx as (s & -> & _). apply H. Qed.
Lemma lap_law_shift eps b b' v : 0 < eps -> convLaw (lapCdf eps) b v <= exp (eps * Rabs (b - b')) * convLaw (lapCdf eps) b' v.
Proof.
  intros He. unfold convLaw. pose proof (conv_lt v) as Hlt. rewrite Rabs_minus_sym.
  replace (convHi v - b') with (convHi v - b - (b' - b)) by ring. replace (convLo v - b') with (convLo v - b - (b' - b)) by ring.
  apply lap_shift; [done|lra].
Qed.

(** ** Two-sided noise *)
Lemma two_sided_transfer c v s s' l l0 : twoSided c -> binLoad c (v - Z.of_N s)%Z s = Done l -> binLoad c v 0 = Done l0 -> (s <= l0)%N -> (s' <= l0)%N ->
  binLoad c (v - Z.of_N s')%Z s' = Done l.
Proof.
  intros HC. unfold binLoad. replace (Z.of_N s + (v - Z.of_N s))%Z with v by lia. replace (Z.of_N s' + (v - Z.of_N s'))%Z with v by lia.
  replace (Z.of_N 0 + v)%Z with v by lia. destruct HC as [-> |(-> & -> & ->)].
  - destruct (_ || _); [done|]. destruct (N.ltb_spec (N.min (cMax c) (Z.to_N v) mod 256) s); [done|].
    destruct (N.ltb_spec (N.min (cMax c) (Z.to_N v) mod 256) 0); [lia|]. intros [= <-] [= <-] H1 H2.
    by destruct (N.ltb_spec (N.min (cMax c) (Z.to_N v) mod 256) s'); [lia|].
  - change (-1 =? -1)%Z with true. cbn [negb]. destruct (N.ltb_spec 255 s); [done|]. destruct (N.ltb_spec 255 0); [lia|]. destruct (_ || _); [done|].
    destruct (lookupAt _ _ _) as [l1|]; [|done]. intros [= <-] [= <-] H1 H2. pose proof (N.mod_lt l1 256 ltac:(lia)).
    destruct (N.ltb_spec 255 s'); [lia|]. f_equal. lia.
Qed.
Lemma two_sided_zero c v s l : twoSided c -> binLoad c (v - Z.of_N s)%Z s = Done l -> exists l0, binLoad c v 0 = Done l0.
Proof.
  intros HC. unfold binLoad. replace (Z.of_N s + (v - Z.of_N s))%Z with v by lia. replace (Z.of_N 0 + v)%Z with v by lia. destruct HC as [-> |(-> & -> & ->)].
  - destruct (_ || _); [done|]. destruct (N.ltb_spec (N.min (cMax c) (Z.to_N v) mod 256) 0); [lia|]. eauto.
  - change (-1 =? -1)%Z with true. cbn [negb]. destruct (N.ltb_spec 255 s); [done|]. destruct (N.ltb_spec 255 0); [lia|]. destruct (_ || _); [done|].
    destruct (lookupAt _ _ _) as [l1|]; [|done]. eauto.
Qed.
Lemma size_dist s s' off : sizeR s + off - (sizeR s' + off) = sizeR s - sizeR s'.
Proof. lra. Qed.
Theorem two_sided_dp eps off c pre s s' post E : 0 < eps -> twoSided c ->
  loadsProb (lapCdf eps) off c (pre ++ s :: post) E <=
  exp (eps * Rabs (sizeR s - sizeR s')) * loadsProb (lapCdf eps) off c (pre ++ s' :: post) E + shortProb (lapCdf eps) off c s (N.max s s').
Proof.
  intros He HC. unfold loadsProb, shortProb. rewrite !map_app. cbn [map]. pose proof (fun b => lap_law eps b He) as HL.
  apply (prob_dp _ (fun v => match binLoad c v 0 with Done l => (l <? N.max s s')%N | _ => false end)).
  - left. apply exp_pos.
  - by apply sizes_laws.
  - apply HL.
  - apply HL.
  - by apply sizes_laws.
  - intros v _. rewrite <- (size_dist s s' off). by apply lap_law_shift.
  - intros vs v ws. rewrite !map_length. intros Lv Lw HE HB. revert HE. apply loadsIn_one; [done..|]. intros l Hl.
    destruct (two_sided_zero c v s l HC Hl) as [l0 E0]. rewrite E0 in HB. destruct (N.ltb_spec l0 (N.max s s')); [done|].
    apply (two_sided_transfer c v s s' l l0); [done..|lia|lia].
Qed.

(** Two bins: one item moves. *)
Lemma move_dp eps off c pre s mid t post E : 0 < eps -> twoSided c ->
  loadsProb (lapCdf eps) off c (pre ++ (s + 1)%N :: mid ++ t :: post) E <=
  exp (2 * eps) * loadsProb (lapCdf eps) off c (pre ++ s :: mid ++ (t + 1)%N :: post) E
    + (shortProb (lapCdf eps) off c (s + 1) (s + 1) + exp eps * shortProb (lapCdf eps) off c t (t + 1)).
Proof.
  intros He HC. pose proof (two_sided_dp eps off c pre (s + 1) s (mid ++ t :: post) E He HC) as G1.
  pose proof (two_sided_dp eps off c (pre ++ s :: mid) t (t + 1) post E He HC) as G2. rewrite <- !(assoc_L (++)) in G2. cbn [app] in G2.
  assert (forall x, sizeR (x + 1) = sizeR x + 1) as E1 by (intros x; unfold sizeR; rewrite N2Z.inj_add, plus_IZR; done).
  replace (Rabs (sizeR (s + 1) - sizeR s)) with 1 in G1 by (rewrite E1; replace (sizeR s + 1 - sizeR s) with 1 by ring; by rewrite Rabs_R1).
  replace (Rabs (sizeR t - sizeR (t + 1))) with 1 in G2 by (rewrite E1, Rabs_minus_sym; replace (sizeR t + 1 - sizeR t) with 1 by ring; by rewrite Rabs_R1).
  rewrite Rmult_1_r in G1, G2. replace (N.max (s + 1) s) with (s + 1)%N in G1 by lia. replace (N.max t (t + 1)) with (t + 1)%N in G2 by lia.
  replace (2 * eps) with (eps + eps) by ring. rewrite exp_plus. pose proof (exp_pos eps). nra.
Qed.
