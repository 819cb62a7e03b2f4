(** Proofs about the bytes of polyNTL. *)
From Verif Require Import Base PolyTree_Model PolyTree_Spec PolyTree_Proofs PolyTree_Proofs2 Prty_Model Prty_Spec Prty_Proofs PolyNtl_Model PolyNtl_Spec PolyNtl_Proofs.
From Coq Require Import Field.
Local Open Scope nat_scope.

Lemma wide4 a b c d : wide [a; b; c; d] = (a + 2 ^ 128 * b + 2 ^ 256 * c + 2 ^ 384 * d)%N.
Proof. unfold wide. cbn [foldr]. change (2 ^ 384)%N with (2 ^ 128 * (2 ^ 128 * 2 ^ 128))%N. change (2 ^ 256)%N with (2 ^ 128 * 2 ^ 128)%N. set (q := (2 ^ 128)%N). clearbody q. lia. Qed.
Lemma blocks_row a b c d : (a < 2 ^ 128)%N -> (b < 2 ^ 128)%N -> (c < 2 ^ 128)%N -> (d < 2 ^ 128)%N -> blocksOf (wide [a; b; c; d]) = [a; b; c; d].
Proof.
  intros Ha Hb Hc Hd. unfold blocksOf. cbn [seq map]. change (128 * N.of_nat 0)%N with 0%N. change (128 * N.of_nat 1)%N with 128%N. change (128 * N.of_nat 2)%N with 256%N. change (128 * N.of_nat 3)%N with 384%N.
  unfold wide. cbn [foldr]. change (2 ^ 384)%N with (2 ^ 128 * (2 ^ 128 * 2 ^ 128))%N. change (2 ^ 256)%N with (2 ^ 128 * 2 ^ 128)%N. change (2 ^ 0)%N with 1%N.
  set (q := (2 ^ 128)%N) in *. assert (q <> 0)%N as Hq by (unfold q; done). clearbody q.
  assert (forall x y, (x < q)%N -> ((x + q * y) mod q = x /\ (x + q * y) / q = y)%N) as Hqr.
  { intros x y Hx. rewrite N.mul_comm. rewrite N.mod_add, N.div_add by done. by rewrite N.mod_small, N.div_small by done. }
  rewrite <- !N.div_div by (try done; by apply N.neq_mul_0). rewrite N.div_1_r. 
  destruct (Hqr a (b + q * (c + q * (d + q * 0)))%N Ha) as [-> ->]. destruct (Hqr b (c + q * (d + q * 0))%N Hb) as [-> ->]. destruct (Hqr c (d + q * 0)%N Hc) as [-> ->]. destruct (Hqr d 0%N Hd) as [-> _]. done.
Qed.
Lemma wide_blocks v : (v < 2 ^ 512)%N -> wide (blocksOf v) = v.
Proof.
  intros Hv. unfold blocksOf. cbn [seq map]. change (128 * N.of_nat 0)%N with 0%N. change (128 * N.of_nat 1)%N with 128%N. change (128 * N.of_nat 2)%N with 256%N. change (128 * N.of_nat 3)%N with 384%N.
  unfold wide. cbn [foldr]. change (2 ^ 384)%N with (2 ^ 128 * (2 ^ 128 * 2 ^ 128))%N. change (2 ^ 256)%N with (2 ^ 128 * 2 ^ 128)%N. change (2 ^ 0)%N with 1%N. change (2 ^ 512)%N with (2 ^ 128 * (2 ^ 128 * (2 ^ 128 * 2 ^ 128)))%N in Hv.
  set (q := (2 ^ 128)%N) in *. assert (q <> 0)%N as Hq by (unfold q; done). clearbody q.
  rewrite <- !N.div_div by (try done; by apply N.neq_mul_0). rewrite N.div_1_r.
  assert (v / q / q / q < q)%N as Hl. { apply N.div_lt_upper_bound; [done|]. apply N.div_lt_upper_bound; [done|]. apply N.div_lt_upper_bound; [done|]. lia. }
  rewrite (N.mod_small (v / q / q / q)) by done. rewrite N.mul_0_r, N.add_0_r.
  assert (forall x, (x mod q + q * (x / q) = x)%N) as E by (intros x; rewrite N.add_comm; symmetry; by apply N.div_mod). by rewrite !E.
Qed.
Lemma lim_512 B : B <= 64 -> (lim B <= 2 ^ 512)%N.
Proof. intros H. unfold lim. apply N.pow_le_mono_r; lia. Qed.
Lemma lim_pos B : lim B <> 0%N.
Proof. unfold lim. apply N.pow_nonzero. lia. Qed.

Section bytes.
Context (K : fops) (rep : fT K -> N) (ofN : N -> fT K) (B : nat) (HF : byteField K rep ofN B).
Let HK : isField K := proj1 HF.
Let FT : field_theory (f0 K) (f1 K) (fadd K) (fmul K) (fsub K) (fopp K) (fun a b => fmul K a (finv K b)) (finv K) eq := proj1 HK.
Add Field KF : FT.
Notation ev := (evalAt K).
Notation L := (lim B).

Lemma rep_lt a : (rep a < L)%N.
Proof using HF. apply HF. Qed.
Lemma of_rep a : ofN (rep a) = a.
Proof using HF. apply HF. Qed.
Lemma rep_of n : (n < L)%N -> rep (ofN n) = n.
Proof using HF. apply HF. Qed.
Lemma bytes_rep a : bytesOf K rep B a = rep a.
Proof using HF. unfold bytesOf. apply N.mod_small, rep_lt. Qed.
Lemma rep_inj a b : rep a = rep b -> a = b.
Proof using HF. intros E. by rewrite <- (of_rep a), <- (of_rep b), E. Qed.
Lemma zero_bytes : B <= 64 -> rep (f0 K) = 0%N -> ofN 0 = f0 K.
Proof using HF. intros _ E. by rewrite <- E, of_rep. Qed.

Lemma from_point x : B <= 64 -> pointFits B x -> fromBlocks K ofN B [x; 0; 0; 0]%N = Some (ofN x).
Proof using HF.
  intros HB [_ Hx]. unfold fromBlocks. cbn [length]. rewrite (proj2 (Nat.ltb_ge _ _)) by lia. f_equal. f_equal. rewrite wide4. rewrite N.mod_small; unfold lim; lia.
Qed.
Lemma from_block x : B <= 16 -> pointFits B x -> fromBlocks K ofN B [x] = Some (ofN x).
Proof using HF.
  intros HB [_ Hx]. unfold fromBlocks. cbn [length]. rewrite (proj2 (Nat.ltb_ge _ _)) by lia. f_equal. f_equal. unfold wide. cbn [foldr]. rewrite N.mod_small; unfold lim; lia.
Qed.
Lemma from_row r : B <= 64 -> rowFitsB B r -> fromBlocks K ofN B r = Some (ofN (wide r)) /\ (wide r < L)%N /\ blocksOf (wide r) = r.
Proof using HF.
  intros HB (a & b & c & d & -> & Ha & Hb & Hc & Hd & Hl). unfold fromBlocks. cbn [length]. rewrite (proj2 (Nat.ltb_ge _ _)) by lia. split; [|split; [rewrite wide4; done|by apply blocks_row]].
  f_equal. f_equal. rewrite N.mod_small; [done|]. rewrite wide4. done.
Qed.
Lemma from_coeff a : B <= 64 -> fromBlocks K ofN B (blocksOf (rep a)) = Some a.
Proof using HF.
  intros HB. unfold fromBlocks. change (length (blocksOf (rep a))) with 4. rewrite (proj2 (Nat.ltb_ge _ _)) by lia. f_equal. rewrite wide_blocks.
  - rewrite N.mod_small by apply rep_lt. apply of_rep.
  - eapply N.lt_le_trans; [apply rep_lt|by apply lim_512].
Qed.
Lemma from_coeff1 a : B <= 16 -> fromBlocks K ofN B [rep a] = Some a.
Proof using HF.
  intros HB. unfold fromBlocks. cbn [length]. rewrite (proj2 (Nat.ltb_ge _ _)) by lia. f_equal. unfold wide. cbn [foldr]. rewrite N.mul_0_r, N.add_0_r. rewrite N.mod_small by apply rep_lt. apply of_rep.
Qed.
Lemma to_blocks a : B <= 64 -> toBlocks K rep B a [0; 0; 0; 0]%N = blocksOf (rep a).
Proof using HF. intros HB. unfold toBlocks. rewrite bytes_rep. change (wide [0; 0; 0; 0]%N) with 0%N. rewrite N.div_0_l by apply lim_pos. f_equal. lia. Qed.

Lemma mapM_some {A C} (f : A -> option C) (g : A -> C) l : Forall (fun x => f x = Some (g x)) l -> mapM f l = Some (map g l).
Proof using. intros H. induction H as [|x l Hx Hl IH]; [done|]. cbn. rewrite Hx. cbn. rewrite IH. done. Qed.
Lemma imap_const {A C} (f : nat -> A -> C) g l : (forall i x, f i x = g x) -> imap f l = map g l.
Proof using. intros H. apply list_eq. intros i. rewrite list_lookup_imap, list_lookup_fmap. destruct (l !! i); cbn; [by rewrite H|done]. Qed.
Lemma eval_ok cs zs : B <= 64 -> Forall (fun c => c < L)%N cs -> Forall (pointFits B) zs ->
  evalSuper K rep ofN B cs zs [] = Done (map (fun z => blocksOf (rep (ev (map ofN cs) (ofN z)))) zs).
Proof using HF.
  intros HB Hc Hz. unfold evalSuper. rewrite (mapM_some _ ofN).
  2: { eapply Forall_impl; [exact Hc|]. cbn beta. intros c Hl. rewrite <- (rep_of c) at 1 by done. by apply from_coeff. }
  rewrite (mapM_some _ ofN). 2: { eapply Forall_impl; [exact Hz|]. cbn beta. intros z Hfz. by apply from_point. }
  f_equal. rewrite (imap_const _ (fun x => blocksOf (rep (ev (map ofN cs) x)))).
  - by rewrite map_map.
  - intros i x. rewrite lookup_nil. cbn [default]. change (default [0; 0; 0; 0]%N None) with [0; 0; 0; 0]%N. rewrite to_blocks by done. unfold setCoeffs. by rewrite (horner_ev K HK), (ev_norm K HK).
Qed.
Lemma evalBlks_ok cs zs : B <= 16 -> Forall (fun c => c < L)%N cs -> Forall (pointFits B) zs ->
  evalBlks K rep ofN B cs zs [] = Done (map (fun z => rep (ev (map ofN cs) (ofN z))) zs).
Proof using HF.
  intros HB Hc Hz. unfold evalBlks. rewrite (mapM_some _ ofN).
  2: { eapply Forall_impl; [exact Hc|]. cbn beta. intros c Hl. rewrite <- (rep_of c) at 1 by done. by apply from_coeff1. }
  rewrite (mapM_some _ ofN). 2: { eapply Forall_impl; [exact Hz|]. cbn beta. intros z Hfz. by apply from_block. }
  f_equal. rewrite (imap_const _ (fun x => rep (ev (map ofN cs) x))).
  - by rewrite map_map.
  - intros i x. rewrite lookup_nil. change (default 0%N None) with 0%N. rewrite N.div_0_l by apply lim_pos. rewrite N.mul_0_r, N.add_0_r, bytes_rep. unfold setCoeffs. by rewrite (horner_ev K HK), (ev_norm K HK).
Qed.

(** Distinct numbers are distinct elements. *)
Lemma of_nodup xs es : Forall (fun x => x < L)%N xs -> NoDup (map ofN xs ++ es) <-> NoDup (xs ++ map rep es).
Proof using HF.
  intros Hx. assert (map rep (map ofN xs ++ es) = xs ++ map rep es) as E.
  { rewrite map_app. f_equal. rewrite map_map. rewrite <- (map_id xs) at 2. apply map_ext_in. intros x Hin. apply rep_of. rewrite Forall_forall in Hx. apply Hx. by apply elem_of_list_In. }
  rewrite <- E. assert (Inj (=) (=) rep) by (intros ??; apply rep_inj). change (map rep) with (fmap (M:=list) rep). by rewrite NoDup_fmap.
Qed.
Lemma fits_lt xs : Forall (pointFits B) xs -> Forall (fun x => x < L)%N xs.
Proof using. intros H. eapply Forall_impl; [exact H|]. by intros x []. Qed.
Lemma super_points setX setY pad : B <= 64 -> length setY = length setX -> Forall (pointFits B) setX -> Forall (rowFitsB B) setY ->
  mapM (fun x => fromBlocks K ofN B [x; 0; 0; 0]%N) setX = Some (map ofN setX) /\ mapM (fromBlocks K ofN B) (take (length setX) setY) = Some (map (fun r => ofN (wide r)) setY) /\
  length (map ofN setX ++ map fst pad) = length (map (fun r => ofN (wide r)) setY ++ map (@snd (fT K) (fT K)) pad).
Proof using HF.
  intros HB Hl Hx Hy. split; [|split].
  - apply mapM_some. eapply Forall_impl; [exact Hx|]. cbn beta. intros x. by apply from_point.
  - rewrite (take_ge setY) by lia. apply mapM_some. eapply Forall_impl; [exact Hy|]. cbn beta. intros r Hr. by apply from_row.
  - rewrite !app_length, !map_length. lia.
Qed.
Lemma super_ok rnd degree setX setY : B <= 64 -> length setY = length setX -> Forall (pointFits B) setX -> Forall (rowFitsB B) setY ->
  NoDup (setX ++ map (fun i => rep (rnd i).1) (seq 0 (S degree - length setX))) ->
  exists p, superCoeffs K rep ofN B rnd degree setX setY = Done (map rep p) /\ normal K p /\ length p <= Nat.max (S degree) (length setX) /\
    map (ev p) (map ofN setX) = map (fun r => ofN (wide r)) setY /\ map (fun i => ev p (rnd i).1) (seq 0 (S degree - length setX)) = map (fun i => (rnd i).2) (seq 0 (S degree - length setX)).
Proof using HF.
  intros HB Hl Hx Hy Hnd. unfold superCoeffs. rewrite (proj2 (Nat.ltb_ge _ _)) by lia. set (pad := padPoints K rnd degree (length setX)).
  destruct (super_points setX setY pad HB Hl Hx Hy) as (-> & -> & Hlen). 
  assert (NoDup (map ofN setX ++ map fst pad)) as Hn. { apply of_nodup; [by apply fits_lt|]. unfold pad, padPoints. rewrite !map_map. done. }
  destruct (interpolate_ok K HK _ _ Hlen Hn) as (p & -> & Hnp & Hlp & Hv). exists p. split; [f_equal; apply map_ext; apply bytes_rep|]. split; [done|].
  split; [rewrite app_length, !map_length in Hlp; unfold pad, padPoints in Hlp; rewrite map_length, seq_length in Hlp; lia|].
  rewrite map_app in Hv. apply app_inj_1 in Hv as [Hv Hp]; [|rewrite !map_length; lia]. split; [done|]. unfold pad, padPoints in Hp. rewrite !map_map in Hp. done.
Qed.
Lemma super_dup rnd degree setX setY : B <= 64 -> length setY = length setX -> Forall (pointFits B) setX -> Forall (rowFitsB B) setY ->
  ¬ NoDup (setX ++ map (fun i => rep (rnd i).1) (seq 0 (S degree - length setX))) -> superCoeffs K rep ofN B rnd degree setX setY = Thrown [].
Proof using HF.
  intros HB Hl Hx Hy Hnd. unfold superCoeffs. rewrite (proj2 (Nat.ltb_ge _ _)) by lia. set (pad := padPoints K rnd degree (length setX)).
  destruct (super_points setX setY pad HB Hl Hx Hy) as (-> & -> & Hlen). rewrite (interpolate_dup K HK _ _ Hlen); [done|].
  intros Hn. apply Hnd. apply of_nodup in Hn; [|by apply fits_lt]. unfold pad, padPoints in Hn. rewrite !map_map in Hn. done.
Qed.
Lemma rep_coeffs p : Forall (fun c => c < L)%N (map rep p) /\ map ofN (map rep p) = p.
Proof using HF.
  split; [apply Forall_fmap; apply Forall_forall; intros a _; apply rep_lt|]. rewrite map_map. rewrite <- (map_id p) at 2. apply map_ext. apply of_rep.
Qed.
(** Evaluation at a point gives its row, also when the coefficients are followed by zeros. *)
Lemma super_eval rnd degree setX setY k : B <= 64 -> length setY = length setX -> Forall (pointFits B) setX -> Forall (rowFitsB B) setY ->
  NoDup (setX ++ map (fun i => rep (rnd i).1) (seq 0 (S degree - length setX))) ->
  exists cs, superCoeffs K rep ofN B rnd degree setX setY = Done cs /\ length cs <= Nat.max (S degree) (length setX) /\
    evalSuper K rep ofN B (cs ++ replicate k (rep (f0 K))) setX [] = Done setY.
Proof using HF.
  intros HB Hl Hx Hy Hnd. destruct (super_ok rnd degree setX setY HB Hl Hx Hy Hnd) as (p & E & _ & Hlp & Hv & _). exists (map rep p). split; [done|]. split; [by rewrite map_length|].
  destruct (rep_coeffs p) as [Hlt Hof]. rewrite eval_ok; [|done| |done].
  - f_equal. rewrite map_app, Hof. rewrite (map_ext _ (fun z => blocksOf (rep (ev p (ofN z))))).
    2: { intros z. f_equal. f_equal. rewrite <- (ev_zeros K HK p k). f_equal. f_equal. rewrite <- (of_rep (f0 K)) at 2. clear. induction k as [|k IH]; [done|]. cbn. by f_equal. }
    apply list_eq. intros i. rewrite list_lookup_fmap. assert (map (ev p) (map ofN setX) !! i = map (fun r => ofN (wide r)) setY !! i) as Hi by by rewrite Hv.
    rewrite !list_lookup_fmap in Hi. destruct (setX !! i) as [x|] eqn:Ex; destruct (setY !! i) as [r|] eqn:Er; cbn in Hi |- *; [|done..].
    injection Hi as Hi. f_equal. rewrite Hi. rewrite Forall_forall in Hy. destruct (from_row r HB (Hy r ltac:(by eapply elem_of_list_lookup_2))) as (_ & Hw & Hb). by rewrite rep_of.
  - apply Forall_app. split; [done|]. apply Forall_replicate. apply rep_lt.
Qed.

Lemma super_evals rnd degree setX setY k zs : B <= 64 -> length setY = length setX -> Forall (pointFits B) setX -> Forall (rowFitsB B) setY ->
  NoDup (setX ++ map (fun i => rep (rnd i).1) (seq 0 (S degree - length setX))) -> Forall (pointFits B) zs ->
  exists cs vs, superCoeffs K rep ofN B rnd degree setX setY = Done cs /\ length cs <= Nat.max (S degree) (length setX) /\
    evalSuper K rep ofN B (cs ++ replicate k (rep (f0 K))) zs [] = Done vs /\ length vs = length zs /\
    forall j m x, setX !! j = Some x -> zs !! m = Some x -> vs !! m = setY !! j.
Proof using HF.
  intros HB Hl Hx Hy Hnd Hz. destruct (super_eval rnd degree setX setY k HB Hl Hx Hy Hnd) as (cs & E & Hlc & He).
  destruct (super_ok rnd degree setX setY HB Hl Hx Hy Hnd) as (p & E' & _). rewrite E in E'. injection E' as ->. destruct (rep_coeffs p) as [Hlt _].
  assert (Forall (fun c => c < L)%N (map rep p ++ replicate k (rep (f0 K)))) as Hc. { apply Forall_app. split; [done|]. apply Forall_replicate, rep_lt. }
  rewrite eval_ok in He by done. injection He as He. exists (map rep p). eexists. split; [done|]. split; [done|]. split; [by apply eval_ok|]. split; [by rewrite map_length|].
  intros j m x Hj Hm. rewrite <- He. by rewrite !list_lookup_fmap, Hj, Hm.
Qed.

(** [getBlkCoefficients] with padding. *)
Lemma blk_points setX setY : B <= 16 -> length setY = length setX -> Forall (pointFits B) setX -> Forall (pointFits B) setY ->
  mapM (fun x => fromBlocks K ofN B [x]) setX = Some (map ofN setX) /\ mapM (fun x => fromBlocks K ofN B [x]) (take (length setX) setY) = Some (map ofN setY).
Proof using HF.
  intros HB Hl Hx Hy. split.
  - apply mapM_some. eapply Forall_impl; [exact Hx|]. cbn beta. intros x. by apply from_block.
  - rewrite (take_ge setY) by lia. apply mapM_some. eapply Forall_impl; [exact Hy|]. cbn beta. intros r Hr. by apply from_block.
Qed.
Lemma blk_nodup setX : Forall (pointFits B) setX -> NoDup setX <-> NoDup (map ofN setX).
Proof using HF. intros Hx. pose proof (of_nodup setX [] (fits_lt _ Hx)) as H. cbn [map] in H. rewrite !app_nil_r in H. symmetry. done. Qed.
Lemma rep_map_of l : Forall (pointFits B) l -> map rep (map ofN l) = l.
Proof using HF. intros H. rewrite map_map. rewrite <- (map_id l) at 2. apply map_ext_in. intros x Hin. apply rep_of. rewrite Forall_forall in H. apply H. by apply elem_of_list_In. Qed.
Lemma pad_ok rnd degree setX setY : B <= 16 -> length setY = length setX -> 0 < length setX <= degree -> Forall (pointFits B) setX -> Forall (pointFits B) setY -> NoDup setX ->
  exists cs, blkCoeffsPad K rep ofN B rnd degree setX setY = Done cs /\ length cs <= S degree /\ evalBlks K rep ofN B cs setX [] = Done setY.
Proof using HF.
  intros HB Hl Hn Hx Hy Hnd. unfold blkCoeffsPad. rewrite (proj2 (Nat.ltb_ge _ _)) by lia. destruct (blk_points setX setY HB Hl Hx Hy) as [-> ->].
  apply blk_nodup in Hnd; [|done]. destruct (interpolate_ok K HK (map ofN setX) (map ofN setY)) as (p & -> & Hnp & Hlp & Hv); [by rewrite !map_length|done|].
  rewrite (proj2 (Nat.ltb_lt _ _)) by lia. rewrite (proj2 (Nat.leb_le _ _)) by lia. cbn [andb]. set (d := norm K (map rnd (seq 0 (degree - length setX + 1)))).
  set (q := norm K (padd K p (pmul K d (fromRoots K (map ofN setX))))). exists (map rep q). split; [f_equal; apply map_ext; apply bytes_rep|]. rewrite map_length.
  assert (length d <= degree - length setX + 1) as Hd. { unfold d. etransitivity; [apply norm_length|]. rewrite map_length, seq_length. lia. }
  pose proof (roots_monic K HK (map ofN setX)) as Hm. apply (monic_length K) in Hm. rewrite map_length in Hm. rewrite map_length in Hlp. split.
  - unfold q. etransitivity; [apply norm_length|]. rewrite padd_length. destruct (Nat.eq_dec (length d) 0) as [E0|E0]; [destruct d; [cbn; lia|done]|].
    pose proof (pmul_length_lt K d (fromRoots K (map ofN setX)) ltac:(lia) ltac:(lia)). lia.
  - destruct (rep_coeffs q) as [Hlt Hof]. rewrite evalBlks_ok by done. f_equal. rewrite Hof. rewrite <- (rep_map_of setY Hy). rewrite <- Hv. rewrite !map_map. apply map_ext_in. intros x Hin. f_equal.
    unfold q. rewrite (ev_norm K HK), (ev_add K HK), (ev_mul K HK). assert (ev (fromRoots K (map ofN setX)) (ofN x) = f0 K) as ->.
    + apply (roots_ev K HK). apply elem_of_list_fmap. exists x. split; [done|]. by apply elem_of_list_In.
    + ring.
Qed.
Lemma pad_form rnd degree setX setY p : B <= 16 -> length setY = length setX -> 0 < length setX <= degree -> Forall (pointFits B) setX -> Forall (pointFits B) setY ->
  interpolate K (map ofN setX) (map ofN setY) = Some p ->
  blkCoeffsPad K rep ofN B rnd degree setX setY = Done (map rep (norm K (padd K p (pmul K (norm K (map rnd (seq 0 (degree - length setX + 1)))) (fromRoots K (map ofN setX)))))).
Proof using HF.
  intros HB Hl Hn Hx Hy Hp. unfold blkCoeffsPad. rewrite (proj2 (Nat.ltb_ge _ _)) by lia. destruct (blk_points setX setY HB Hl Hx Hy) as [-> ->]. rewrite Hp.
  rewrite (proj2 (Nat.ltb_lt _ _)) by lia. rewrite (proj2 (Nat.leb_le _ _)) by lia. cbn [andb]. f_equal. apply map_ext. apply bytes_rep.
Qed.
Lemma seq_nth (d : list (fT K)) z k : length d = k -> map (fun i => nth i d z) (seq 0 k) = d.
Proof using. intros <-. induction d as [|a d IH]; [done|]. cbn [length seq map nth]. f_equal. rewrite <- seq_shift, map_map. exact IH. Qed.
Lemma rep_map_inj p q : map rep p = map rep q -> p = q.
Proof using HF. intros E. destruct (rep_coeffs p) as [_ Ep], (rep_coeffs q) as [_ Eq]. by rewrite <- Ep, <- Eq, E. Qed.
(** Each polynomial through the points comes from exactly one choice of the random coefficients. *)
Lemma pad_unique degree setX setY cs : B <= 16 -> length setY = length setX -> 0 < length setX <= degree -> Forall (pointFits B) setX -> Forall (pointFits B) setY -> NoDup setX ->
  length cs <= S degree -> Forall (fun c => c < 2 ^ (8 * N.of_nat B))%N cs -> last cs <> Some (rep (f0 K)) -> evalBlks K rep ofN B cs setX [] = Done setY ->
  exists d, length d = degree - length setX + 1 /\ forall rnd, blkCoeffsPad K rep ofN B rnd degree setX setY = Done cs <-> map rnd (seq 0 (degree - length setX + 1)) = d.
Proof using HF.
  intros HB Hl Hn Hx Hy Hnd Hlc Hc Hlast He. pose proof Hnd as Hnd'. apply blk_nodup in Hnd'; [|done].
  destruct (interpolate_ok K HK (map ofN setX) (map ofN setY)) as (p & Hp & Hnp & Hlp & Hv); [by rewrite !map_length|done|]. rewrite map_length in Hlp.
  set (q := map ofN cs). assert (map rep q = cs) as Eq. { unfold q. rewrite map_map. rewrite <- (map_id cs) at 2. apply map_ext_in. intros c Hin. apply rep_of. rewrite Forall_forall in Hc. apply Hc. by apply elem_of_list_In. }
  assert (normal K q) as Nq. { intros q' a E ->. apply Hlast. rewrite <- Eq, E, map_app. cbn. by rewrite last_snoc. }
  rewrite evalBlks_ok in He by done. fold q in He. injection He as He.
  assert (forall x, x ∈ map ofN setX -> ev p x = ev q x) as Hpq.
  { intros x Hin. apply elem_of_list_lookup in Hin as [i Hin]. rewrite list_lookup_fmap in Hin. destruct (setX !! i) as [x0|] eqn:Ex; [|done]. cbn in Hin. injection Hin as <-.
    assert (map (ev p) (map ofN setX) !! i = map ofN setY !! i) as H1 by by rewrite Hv. rewrite !list_lookup_fmap, Ex in H1. cbn in H1.
    assert (map (fun z => rep (ev q (ofN z))) setX !! i = setY !! i) as H2 by by rewrite He. rewrite list_lookup_fmap, Ex in H2. cbn in H2. rewrite <- H2 in H1. cbn in H1. injection H1 as ->. by rewrite of_rep. }
  set (k := degree - length setX + 1). destruct (through_param K HK (map ofN setX) p q k) as (d & Hd & Hdq & Hu); [done|rewrite map_length; lia|rewrite map_length; unfold q; rewrite map_length; lia|done|done|].
  exists d. split; [done|]. intros rnd. rewrite (pad_form rnd degree setX setY p) by done. fold k. split.
  - intros E. injection E as E. rewrite <- Eq in E. apply rep_map_inj in E. apply Hu; [|done]. by rewrite map_length, seq_length.
  - intros ->. f_equal. rewrite Hdq. done.
Qed.

(** The exchange of a step of bins. *)
Notation binOk := (binOk K rep B).
Notation binFull := (binFull K rep ofN).
Lemma all_coeffs rnd d bins : forall k, B <= 64 -> 0 < d -> (forall i bin, bins !! i = Some bin -> binOk (rnd (k + i)) d bin /\ binFull (rnd (k + i)) d bin) ->
  exists ps, allCoeffs K rep ofN B rnd d k bins = Done (map (map rep) ps) /\ length ps = length bins /\ Forall (fun p => length p = d) ps /\
    forall i bin p, bins !! i = Some bin -> ps !! i = Some p -> map (fun x => blocksOf (rep (ev p (ofN x)))) bin.1 = bin.2.
Proof using HF.
  induction bins as [|[setX setY] bins IH]; intros k HB Hd Hb; cbn [allCoeffs].
  - exists []. split; [done|]. split; [done|]. split; [done|]. intros i bin p H. by rewrite lookup_nil in H.
  - destruct (Hb 0 _ eq_refl) as [(Hl & Hle & Hx & Hy & Hnd) Hfull]. rewrite Nat.add_0_r in *. cbn [fst snd] in *.
    destruct (super_ok (rnd k) (d - 1) setX setY HB Hl Hx Hy) as (p & -> & Hnp & Hlp & Hv & Hpad); [by replace (S (d - 1) - length setX) with (d - length setX) by lia|].
    replace (S (d - 1) - length setX) with (d - length setX) in Hpad by lia.
    destruct (IH (S k) HB Hd) as (ps & -> & Hlps & Hfd & Hval). { intros i bin Hi. replace (S k + i) with (k + S i) by lia. by apply Hb. }
    assert (map (fun x => blocksOf (rep (ev p (ofN x)))) setX = setY) as HvY.
    { apply list_eq. intros i. rewrite list_lookup_fmap. assert (map (ev p) (map ofN setX) !! i = map (fun r => ofN (wide r)) setY !! i) as Hi by by rewrite Hv.
      rewrite !list_lookup_fmap in Hi. destruct (setX !! i) as [x|] eqn:Ex; destruct (setY !! i) as [r|] eqn:Er; cbn in Hi |- *; [|done..].
      injection Hi as Hi. f_equal. rewrite Hi. rewrite Forall_forall in Hy. destruct (from_row r HB (Hy r ltac:(by eapply elem_of_list_lookup_2))) as (_ & Hw & Hbk). by rewrite rep_of. }
    exists (p :: ps). split; [done|]. split; [cbn; by rewrite Hlps|]. split.
    + constructor; [|done]. destruct (Nat.lt_ge_cases (length p) d) as [Hlt|Hge]; [|lia]. exfalso. apply (Hfull p Hlt). cbn [fst snd]. split; [done|].
      intros i Hi. assert (forall l, map (fun i => ev p (rnd k i).1) l = map (fun i => (rnd k i).2) l -> i ∈ l -> ev p (rnd k i).1 = (rnd k i).2) as Hin.
      { intros l. induction l as [|a l IHl]; intros E Hin; [by apply elem_of_nil in Hin|]. cbn in E. injection E as E1 E2. apply elem_of_cons in Hin as [->|Hin]; [done|by apply IHl]. }
      apply (Hin _ Hpad). apply elem_of_seq. lia.
    + intros [|i] bin p' Hb' Hp'; [cbn in Hb', Hp'; injection Hb' as <-; injection Hp' as <-; exact HvY|]. by apply (Hval i).
Qed.
Lemma all_values ps : forall theirs, B <= 64 -> length theirs = length ps -> Forall (Forall (pointFits B)) theirs ->
  allValues K rep ofN B (map (map rep) ps) theirs = Done (zip_with (fun p zs => map (fun z => blocksOf (rep (ev p (ofN z)))) zs) ps theirs).
Proof using HF.
  induction ps as [|p ps IH]; intros [|zs theirs] HB Hl Hf; cbn in Hl; [done|done|done|]. cbn [map allValues]. apply Forall_cons in Hf as [Hz Hf].
  destruct (rep_coeffs p) as [Hlt Hof]. rewrite eval_ok by done. rewrite Hof. rewrite IH by (done || lia). done.
Qed.
Lemma exchange_ok rnd d bins theirs : B <= 64 -> 0 < d -> length theirs = length bins -> Forall (Forall (pointFits B)) theirs ->
  (forall i bin, bins !! i = Some bin -> binOk (rnd i) d bin /\ binFull (rnd i) d bin) ->
  exists vss, exchange K rep ofN B rnd d bins theirs = Done vss /\ length vss = length bins /\
    forall i j bin x r zs m, bins !! i = Some bin -> bin.1 !! j = Some x -> bin.2 !! j = Some r -> theirs !! i = Some zs -> zs !! m = Some x -> exists vs, vss !! i = Some vs /\ vs !! m = Some r.
Proof using HF.
  intros HB Hd Hl Hz Hb. destruct (all_coeffs rnd d bins 0 HB Hd Hb) as (ps & E & Hlps & Hfd & Hval). unfold exchange. rewrite E.
  assert (Forall (fun c : list N => length c = d) (map (map rep) ps)) as Hfd'. { apply Forall_fmap. eapply Forall_impl; [exact Hfd|]. intros p Hp. cbn. by rewrite map_length. }
  destruct (pack_full d (map (map rep) ps) Hfd') as [-> Hun]. rewrite map_length in Hun. rewrite <- Hlps, Hun. rewrite all_values by (done || lia).
  eexists. split; [done|]. split; [rewrite zip_with_length; lia|]. intros i j bin x r zs m Hbin Hx Hr Hzs Hm.
  assert (is_Some (ps !! i)) as [p Hp]. { apply lookup_lt_is_Some. rewrite Hlps. by eapply lookup_lt_Some. }
  eexists. split; [apply lookup_zip_with_Some; exists p, zs; done|]. rewrite list_lookup_fmap, Hm. cbn. f_equal.
  pose proof (Hval i bin p Hbin Hp) as Hv. assert (map (fun x => blocksOf (rep (ev p (ofN x)))) bin.1 !! j = bin.2 !! j) as H by by rewrite Hv.
  rewrite list_lookup_fmap, Hx, Hr in H. cbn in H. by injection H.
Qed.

(** [interp] of PRTY. *)
Lemma ntl_interp rnd pts x r : B <= 64 -> 16 <= B -> NoDup (map fst pts) -> Forall (fun p : N * list N => (p.1 < 2 ^ 128)%N /\ rowFitsB B p.2) pts ->
  NoDup (map fst pts ++ map (fun i => rep (rnd pts i).1) (seq 0 (40 - length pts))) -> (x, r) ∈ pts -> ntlInterp K rep ofN B rnd pts x = r.
Proof using HF.
  intros HB HB' Hnd Hf Hpad Hin. unfold ntlInterp. assert (Forall (pointFits B) (map fst pts)) as Hx.
  { apply Forall_fmap. eapply Forall_impl; [exact Hf|]. intros p [Hp _]. cbn. split; [done|]. eapply N.lt_le_trans; [exact Hp|]. apply N.pow_le_mono_r; lia. }
  assert (Forall (rowFitsB B) (map snd pts)) as Hy. { apply Forall_fmap. eapply Forall_impl; [exact Hf|]. by intros p [_ Hp]. }
  destruct (super_ok (rnd pts) 39 (map fst pts) (map snd pts) HB) as (p & -> & _ & _ & Hv & _); [by rewrite !map_length|done|done|by rewrite map_length|].
  destruct (rep_coeffs p) as [Hlt Hof]. assert (pointFits B x) as Hfx. { rewrite Forall_forall in Hx. apply Hx. by apply (elem_of_list_fmap_1 fst) in Hin. }
  rewrite eval_ok by (done || by constructor). cbn [map]. rewrite Hof.
  apply elem_of_list_lookup in Hin as [i Hin]. assert (map (ev p) (map ofN (map fst pts)) !! i = map (fun r => ofN (wide r)) (map snd pts) !! i) as Hi by by rewrite Hv.
  rewrite !list_lookup_fmap, Hin in Hi. cbn in Hi. injection Hi as Hi. rewrite Hi. rewrite Forall_forall in Hy.
  destruct (from_row r HB) as (_ & Hw & Hb); [apply Hy; by apply (elem_of_list_lookup_2 _ i); rewrite list_lookup_fmap, Hin|]. by rewrite rep_of.
Qed.
Lemma rowFits_bytes F r : F <= 8 * B -> 384 <= F <= 512 -> rowFits F r -> rowFitsB B r.
Proof using.
  intros HFB HFr (a & b & c & d & -> & Ha & Hb & Hc & Hd). exists a, b, c, d. split; [done|]. split; [done|]. split; [done|]. split; [done|].
  assert (d < 2 ^ 128)%N as Hd'. { eapply N.lt_le_trans; [exact Hd|]. apply N.pow_le_mono_r; lia. } split; [done|].
  apply N.lt_le_trans with (2 ^ 384 * 2 ^ (N.of_nat F - 384))%N.
  - set (e := (2 ^ (N.of_nat F - 384))%N) in *. clearbody e. change (2 ^ 384)%N with (2 ^ 128 * (2 ^ 128 * 2 ^ 128))%N. change (2 ^ 256)%N with (2 ^ 128 * 2 ^ 128)%N. set (q := (2 ^ 128)%N) in *. clearbody q. clear -Ha Hb Hc Hd. 
    assert (a + q * b + 1 <= q * q)%N by nia. assert (a + q * b + q * q * c + 1 <= q * (q * q))%N by nia. nia.
  - rewrite <- N.pow_add_r. apply N.pow_le_mono_r; lia.
Qed.
Lemma ntl_interpolates P F rnd : B <= 64 -> F <= 8 * B -> 384 <= F <= 512 -> interp P = ntlInterp K rep ofN B rnd ->
  freshDummies K rep rnd -> interpolates P F.
Proof using HF.
  intros HB HFB HFr Hi Hr pts x r Hnd Hf Hin. rewrite Hi. apply ntl_interp; [done|lia|done| |apply Hr; [done|]; eapply Forall_impl; [exact Hf|]; by intros ? [? _]|done].
  eapply Forall_impl; [exact Hf|]. intros p [H1 H2]. split; [done|]. by apply (rowFits_bytes F).
Qed.
End bytes.
