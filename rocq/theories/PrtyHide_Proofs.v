(** Proofs about what the polynomials of PRTY reveal. *)
From Verif Require Import Base PolyTree_Model PolyTree_Spec PolyTree_Proofs PolyTree_Proofs2 Prty_Model Prty_Spec Prty_Proofs PolyNtl_Model PolyNtl_Spec PolyNtl_Proofs PolyNtl_Proofs2 PrtyHide_Spec.
Local Open Scope nat_scope.

Lemma rowNum_wide r : rowNum r = wide r.
Proof. induction r as [|b r IH]; [done|]. cbn [rowNum]. rewrite IH. done. Qed.

Section bytes.
Context (K : fops) (rep : fT K -> N) (ofN : N -> fT K) (B : nat) (HF : byteField K rep ofN B) (HB : B <= 64).
Let HK : isField K := proj1 HF.
Notation ev := (evalAt K).
Notation L := (lim B).

Lemma blocks_fits v : (v < L)%N -> rowFitsB B (blocksOf v) /\ wide (blocksOf v) = v.
Proof using HF HB.
  intros Hv. assert (v < 2 ^ 512)%N as Hv'. { eapply N.lt_le_trans; [exact Hv|]. unfold lim. apply N.pow_le_mono_r; lia. }
  pose proof (wide_blocks v Hv') as Hw. split; [|done]. unfold blocksOf in *. cbn [seq map] in *. eexists _, _, _, _. split; [done|].
  repeat (split; [by apply N.mod_lt, N.pow_nonzero|]). rewrite wide4 in Hw. by rewrite Hw.
Qed.
(** The points and the values of a bin, in the field. *)
Definition allX (rnd : nat -> fT K * fT K) (d : nat) (X : list N) : list (fT K) := map ofN X ++ map (fun i => (rnd i).1) (seq 0 (S d - length X)).
Definition allY (rnd : nat -> fT K * fT K) (d : nat) (Y : list (list N)) : list (fT K) := map (fun r => ofN (wide r)) Y ++ map (fun i => (rnd i).2) (seq 0 (S d - length Y)).
Lemma allX_length rnd d X : length X <= S d -> length (allX rnd d X) = S d.
Proof using HB. intros H. unfold allX. rewrite app_length, !map_length, seq_length. lia. Qed.
Lemma allX_nodup rnd d X : Forall (pointFits B) X -> pointsOk K rep rnd (S d) X -> NoDup (allX rnd d X).
Proof using HF. intros Hx H. unfold allX. apply (of_nodup K rep ofN B HF); [by apply fits_lt|]. rewrite map_map. done. Qed.
Lemma super_through rnd d X Y : length Y = length X -> length X <= S d -> Forall (pointFits B) X -> Forall (rowFitsB B) Y -> pointsOk K rep rnd (S d) X ->
  exists p, superCoeffs K rep ofN B rnd d X Y = Done (map rep p) /\ normal K p /\ length p <= S d /\ map (ev p) (allX rnd d X) = allY rnd d Y.
Proof using HF HB.
  intros Hl Hd Hx Hy Hnd. destruct (super_ok K rep ofN B HF rnd d X Y HB Hl Hx Hy Hnd) as (p & E & Hn & Hlp & H1 & H2). exists p. split; [done|]. split; [done|]. split; [lia|].
  unfold allX, allY. rewrite map_app, H1, Hl. by rewrite map_map, H2.
Qed.
Lemma map_rep_inj p q : map rep p = map rep q -> p = q.
Proof using HF.
  revert q. induction p as [|a p IH]; intros [|b q]; [done|done|done|]. cbn. intros [= E1 E2]. f_equal; [by apply (rep_inj K rep ofN B HF)|by apply IH].
Qed.
Lemma super_is rnd d X Y p : length Y = length X -> length X <= S d -> Forall (pointFits B) X -> Forall (rowFitsB B) Y -> pointsOk K rep rnd (S d) X ->
  normal K p -> length p <= S d -> superCoeffs K rep ofN B rnd d X Y = Done (map rep p) <-> map (ev p) (allX rnd d X) = allY rnd d Y.
Proof using HF HB.
  intros Hl Hd Hx Hy Hnd Hn Hlp. destruct (super_through rnd d X Y) as (q & E & Hnq & Hlq & Hq); [done..|]. rewrite E. split.
  - intros [= E']. apply map_rep_inj in E'. by subst q.
  - intros Hp. f_equal. f_equal. apply (eval_unique K HK (allX rnd d X)); [by apply allX_nodup|by rewrite allX_length..|done|done|]. by rewrite Hp, Hq.
Qed.
Lemma eval_at p k z : pointFits B z -> evalSuper K rep ofN B (map rep p ++ replicate k (rep (f0 K))) [z] [] = Done [blocksOf (rep (ev p (ofN z)))].
Proof using HF HB.
  intros Hz. rewrite (eval_ok K rep ofN B HF); [|done| |by constructor].
  - cbn [map]. destruct (rep_coeffs K rep ofN B HF p) as [_ Hof]. rewrite map_app, Hof. f_equal. f_equal. f_equal. f_equal. rewrite <- (ev_zeros K HK p k). f_equal. f_equal.
    rewrite <- (of_rep K rep ofN B HF (f0 K)) at 2. clear. induction k as [|k IH]; [done|]. cbn. by f_equal.
  - apply Forall_app. split; [apply (rep_coeffs K rep ofN B HF)|]. apply Forall_replicate. apply (rep_lt K rep ofN B HF).
Qed.

(** The value at another point is uniform in the value at a random point. *)
Lemma other_uniform rnd d X Y k z v : length Y = length X -> length X <= d -> Forall (pointFits B) X -> Forall (rowFitsB B) Y -> pointsOk K rep rnd (S d) X ->
  pointFits B z -> z ∉ X ++ map (fun i => rep (rnd i).1) (seq 0 (S d - length X)) -> (v < L)%N ->
  exists b, forall b', (exists cs r, superCoeffs K rep ofN B (revalue K rnd b') d X Y = Done cs /\
    evalSuper K rep ofN B (cs ++ replicate k (rep (f0 K))) [z] [] = Done [r] /\ rowNum r = v) <-> b' = b.
Proof using HF HB.
  intros Hl Hd Hx Hy Hnd Hz Hzn Hv. set (m := d - length X). assert (S d - length X = S m) as Em by lia.
  set (xs0 := map ofN X ++ map (fun i => (rnd i).1) (seq 1 m)). set (ys0 := map (fun r => ofN (wide r)) Y ++ map (fun i => (rnd i).2) (seq 1 m)).
  assert (forall b, allX (revalue K rnd b) d X ≡ₚ (rnd 0).1 :: xs0) as HXp.
  { intros b. unfold allX, xs0. rewrite Em. cbn [seq map revalue fst]. rewrite <- Permutation_middle. constructor. f_equiv.
    rewrite (map_ext_in _ (fun i => (rnd i).1)); [done|]. intros i Hi%in_seq. destruct i; [lia|done]. }
  assert (forall b p, map (ev p) (allX (revalue K rnd b) d X) = allY (revalue K rnd b) d Y <-> ev p (rnd 0).1 = b /\ map (ev p) xs0 = ys0) as Hchar.
  { intros b p. unfold allX, allY, xs0, ys0. rewrite Hl, Em. cbn [seq map revalue fst snd]. rewrite !map_app. cbn [map].
    rewrite (map_ext_in (fun i => (revalue K rnd b i).1) (fun i => (rnd i).1)) by (intros i Hi%in_seq; destruct i; [lia|done]).
    rewrite (map_ext_in (fun i => (revalue K rnd b i).2) (fun i => (rnd i).2)) by (intros i Hi%in_seq; destruct i; [lia|done]).
    split.
    - intros H. apply app_inj_1 in H as [H1 H2]; [|rewrite !map_length; lia]. injection H2 as H2 H3. split; [done|]. by rewrite H1, H3.
    - intros [H1 H2]. apply app_inj_1 in H2 as [H2 H3]; [|rewrite !map_length; lia]. by rewrite H1, H2, H3. }
  assert (forall b, pointsOk K rep (revalue K rnd b) (S d) X) as Hok.
  { intros b. unfold pointsOk in *. rewrite (map_ext _ (fun i => rep (rnd i).1)); [done|]. by intros []. }
  assert (NoDup ((rnd 0).1 :: xs0)) as Hnd0. { rewrite <- (HXp (f0 K)). by apply allX_nodup. }
  assert (ofN z ∉ (rnd 0).1 :: xs0) as Hz0.
  { rewrite <- (HXp (f0 K)). intros Hin. apply Hzn. assert (rep (ofN z) = z) as Ez by (apply (rep_of K rep ofN B HF), Hz). rewrite <- Ez.
    assert (X ++ map (fun i => rep (rnd i).1) (seq 0 (S d - length X)) = map rep (allX (revalue K rnd (f0 K)) d X)) as ->; [|by apply elem_of_list_fmap_1].
    unfold allX. rewrite map_app, !map_map. f_equal; [|apply map_ext; by intros []]. rewrite <- (map_id X) at 1. apply map_ext_in. intros x Hin'. symmetry. apply (rep_of K rep ofN B HF).
    rewrite Forall_forall in Hx. apply Hx. by apply elem_of_list_In. }
  apply NoDup_cons in Hnd0 as [Hn0 Hnd1]. apply not_elem_of_cons in Hz0 as [Hz1 Hz2].
  assert (length xs0 = d) as Hlx. { unfold xs0. rewrite app_length, !map_length, seq_length. lia. }
  assert (length xs0 = length ys0) as Hly. { unfold xs0, ys0. rewrite !app_length, !map_length. lia. }
  destruct (interpolate_ok K HK (ofN z :: xs0) (ofN v :: ys0)) as (q & _ & Hnq & Hlq & Hq); [cbn; lia|by constructor|]. cbn [length map] in Hlq, Hq. injection Hq as Hqz Hq0.
  assert (forall p b, normal K p -> length p <= S d -> superCoeffs K rep ofN B (revalue K rnd b) d X Y = Done (map rep p) <-> ev p (rnd 0).1 = b /\ map (ev p) xs0 = ys0) as Hsup.
  { intros p b Hn Hlp. rewrite <- Hchar. apply super_is; [done|lia|done|done|apply Hok|done|done]. }
  exists (ev q (rnd 0).1). intros b'. split.
  - intros (cs & r & E1 & E2 & E3). destruct (super_through (revalue K rnd b') d X Y) as (p & E & Hn & Hlp & _); [done|lia|done|done|apply Hok|].
    rewrite E in E1. injection E1 as <-. apply Hsup in E as [Hb Hp0]; [|done|done]. rewrite eval_at in E2 by done. injection E2 as <-. rewrite rowNum_wide in E3.
    rewrite (proj2 (blocks_fits _ (rep_lt K rep ofN B HF _))) in E3. rewrite <- Hb. f_equal. 
    apply (eval_unique K HK (ofN z :: xs0)); [by constructor|cbn; lia|cbn; lia|done|done|]. cbn [map]. rewrite Hp0, Hq0, Hqz. f_equal. rewrite <- E3. symmetry. apply (of_rep K rep ofN B HF).
  - intros ->. exists (map rep q). eexists. split; [apply Hsup; [done|lia|done]|]. split; [by apply eval_at|]. rewrite rowNum_wide, Hqz. rewrite (rep_of K rep ofN B HF) by done. by apply blocks_fits.
Qed.

(** Two bins: each filling of the first one has exactly one of the second with the same polynomial. *)
Lemma hidden d X px X' px' Y V : length X <= S d -> length X' <= S d -> Forall (pointFits B) X -> Forall (pointFits B) X' ->
  pointsOk K rep (filling K px []) (S d) X -> pointsOk K rep (filling K px' []) (S d) X' -> length Y = length X -> Forall (rowFitsB B) Y -> length V = S d - length X ->
  exists cs, superCoeffs K rep ofN B (filling K px V) d X Y = Done cs /\
    exists Y' V', (length Y' = length X' /\ Forall (rowFitsB B) Y' /\ length V' = S d - length X') /\ forall Y'' V'', length Y'' = length X' -> Forall (rowFitsB B) Y'' -> length V'' = S d - length X' ->
      superCoeffs K rep ofN B (filling K px' V'') d X' Y'' = Done cs <-> Y'' = Y' /\ V'' = V'.
Proof using HF HB.
  intros Hd Hd' Hx Hx' Hok Hok' Hl Hy HV. destruct (super_through (filling K px V) d X Y) as (p & E & Hn & Hlp & _); [done..|]. exists (map rep p). split; [done|].
  exists (map (fun x => blocksOf (rep (ev p (ofN x)))) X'), (map (fun i => ev p (px' i)) (seq 0 (S d - length X'))).
  split. { rewrite !map_length, seq_length. split; [done|]. split; [|done]. apply Forall_fmap, Forall_forall. intros x _. apply blocks_fits, (rep_lt K rep ofN B HF). }
  intros Y'' V'' Hl'' Hy'' HV''.
  rewrite (super_is (filling K px' V'') d X' Y'' p) by done. unfold allX, allY. rewrite map_app. split.
  - intros H. apply app_inj_1 in H as [H1 H2]; [|rewrite !map_length; lia]. rewrite map_map in H1. rewrite map_map in H2. split.
    + rewrite <- (map_map (fun x => ev p (ofN x)) (fun e => blocksOf (rep e))), H1, map_map. rewrite <- (map_id Y'') at 1. apply map_ext_in. intros r Hr%elem_of_list_In.
      rewrite Forall_forall in Hy''. destruct (from_row K rep ofN B HF r HB (Hy'' r Hr)) as (_ & Hw & Hb). rewrite (rep_of K rep ofN B HF) by done. done.
    + cbn [filling fst snd] in H2. unfold filling in H2. cbn [fst snd] in H2. rewrite H2, Hl'', <- HV''. clear. apply list_eq. intros i. rewrite list_lookup_fmap.
      destruct (decide (i < length V'')) as [Hi|Hi].
      * rewrite lookup_seq_lt by done. cbn. destruct (V'' !! i) as [x|] eqn:Ex; [|apply lookup_ge_None in Ex; lia]. by rewrite (nth_lookup_Some _ _ _ _ Ex).
      * rewrite lookup_ge_None_2 by lia. by rewrite lookup_seq_ge by lia.
  - intros [-> ->]. f_equal.
    + rewrite !map_map. apply map_ext. intros x. rewrite (proj2 (blocks_fits _ (rep_lt K rep ofN B HF _))). symmetry. apply (of_rep K rep ofN B HF).
    + rewrite map_map, map_length. unfold filling. cbn [fst snd]. clear. apply map_ext_in. intros i Hi%in_seq. symmetry. apply nth_lookup_Some. rewrite list_lookup_fmap, lookup_seq_lt by lia. done.
Qed.
End bytes.

Lemma rowFits_num F r : 384 <= F <= 512 -> rowFits F r -> (rowNum r < 2 ^ N.of_nat F)%N.
Proof.
  intros HFr (a & b & c & d & -> & Ha & Hb & Hc & Hd). cbn [rowNum]. rewrite N.mul_0_r, N.add_0_r.
  replace (N.of_nat F) with (384 + (N.of_nat F - 384))%N by lia. rewrite N.pow_add_r. change (2 ^ 384)%N with (2 ^ 128 * (2 ^ 128 * 2 ^ 128))%N.
  set (e := (2 ^ (N.of_nat F - 384))%N) in *. clearbody e. set (q := (2 ^ 128)%N) in *. clearbody q. clear -Ha Hb Hc Hd.
  assert (c + q * d + 1 <= q * e)%N by nia. assert (b + q * (c + q * d) + 1 <= q * (q * e))%N by nia. nia.
Qed.

Section prty.
Context (K : fops) (rep : fT K -> N) (ofN : N -> fT K) (B : nat) (HF : byteField K rep ofN B) (HB : B <= 64).

Lemma bin_points P F blks : Forall (fun x => x < 2 ^ 128)%N blks -> 384 <= F <= 512 -> F <= 8 * B ->
  map fst (binPoints P F blks) = blks /\ length (map snd (binPoints P F blks)) = length blks /\ Forall (pointFits B) blks /\
  Forall (rowFits F) (map snd (binPoints P F blks)) /\ Forall (rowFitsB B) (map snd (binPoints P F blks)).
Proof using HB.
  intros Hb HFr HFB. assert (Forall (rowFits F) (map snd (binPoints P F blks))) as Hrow.
  { unfold binPoints. rewrite map_map. apply Forall_fmap, Forall_forall. intros x _. by apply row_fits. }
  split; [unfold binPoints; rewrite map_map; apply map_id|]. split; [unfold binPoints; by rewrite !map_length|]. split.
  { eapply Forall_impl; [exact Hb|]. cbn beta. intros x Hx. split; [done|]. eapply N.lt_le_trans; [exact Hx|]. apply N.pow_le_mono_r; lia. }
  split; [done|]. eapply Forall_impl; [exact Hrow|]. intros r. by apply rowFits_bytes.
Qed.

(** At the receiver's points the polynomial has values of [F] bits. *)
Lemma members P F rnd d blks k x : Forall (fun x => x < 2 ^ 128)%N blks -> 384 <= F <= 512 -> F <= 8 * B -> length blks <= S d -> pointsOk K rep rnd (S d) blks -> x ∈ blks ->
  exists cs r, superCoeffs K rep ofN B rnd d (map fst (binPoints P F blks)) (map snd (binPoints P F blks)) = Done cs /\
    evalSuper K rep ofN B (cs ++ replicate k (rep (f0 K))) [x] [] = Done [r] /\ (rowNum r < 2 ^ N.of_nat F)%N.
Proof using HF HB.
  intros Hb HFr HFB Hd Hok Hx. destruct (bin_points P F blks Hb HFr HFB) as (-> & Hl & Hpf & Hrf & Hrb).
  destruct (super_evals K rep ofN B HF rnd d blks (map snd (binPoints P F blks)) k [x] HB Hl Hpf Hrb Hok) as (cs & vs & E1 & _ & E2 & Hvs & Hv).
  { constructor; [|done]. rewrite Forall_forall in Hpf. by apply Hpf. }
  apply elem_of_list_lookup in Hx as [j Hj]. pose proof (Hv j 0 x Hj eq_refl) as H0. destruct vs as [|r [|? ?]]; [done| |done]. cbn in H0. symmetry in H0.
  exists cs, r. split; [done|]. split; [done|]. apply rowFits_num; [done|]. rewrite Forall_forall in Hrf. apply Hrf. by eapply elem_of_list_lookup_2.
Qed.

(** So some polynomials of a bin without [z] are of no bin with [z]. *)
Lemma tells P F rnd d blks z : Forall (fun x => x < 2 ^ 128)%N (z :: blks) -> 384 <= F <= 512 -> F < 8 * B -> length blks <= d -> pointsOk K rep rnd (S d) blks ->
  z ∉ blks ++ map (fun i => rep (rnd i).1) (seq 0 (S d - length blks)) ->
  exists b cs, superCoeffs K rep ofN B (revalue K rnd b) d (map fst (binPoints P F blks)) (map snd (binPoints P F blks)) = Done cs /\
    forall P' rnd' blks', Forall (fun x => x < 2 ^ 128)%N blks' -> length blks' <= S d -> pointsOk K rep rnd' (S d) blks' -> z ∈ blks' ->
      superCoeffs K rep ofN B rnd' d (map fst (binPoints P' F blks')) (map snd (binPoints P' F blks')) <> Done cs.
Proof using HF HB.
  intros [Hz Hb]%Forall_cons HFr HFB Hd Hok Hzn. destruct (bin_points P F blks Hb HFr ltac:(lia)) as (Hfst & Hl & Hpf & Hrf & Hrb). rewrite Hfst.
  destruct (other_uniform K rep ofN B HF HB rnd d blks (map snd (binPoints P F blks)) 0 z (2 ^ N.of_nat F)%N) as [b Hu]; [done|done|done|done|done| |done| |].
  { split; [done|]. eapply N.lt_le_trans; [exact Hz|]. apply N.pow_le_mono_r; lia. }
  { unfold lim. apply N.pow_lt_mono_r; lia. }
  destruct (proj2 (Hu b) eq_refl) as (cs & r & E1 & E2 & E3). exists b, cs. split; [done|]. intros P' rnd' blks' Hb' Hd' Hok' Hin E.
  destruct (members P' F rnd' d blks' 0 z) as (cs' & r' & E1' & E2' & E3'); [done|done|lia|done|done|done|]. rewrite E in E1'. injection E1' as <-. rewrite E2 in E2'. injection E2' as <-. lia.
Qed.
End prty.

Lemma sizes n : let F := fieldSizeOf n in let B := (F + 7) / 8 in
  384 <= F <= 8 * B /\ 16 <= B <= 64 /\ (F < 8 * B <-> (2 ^ 10 < n <= 2 ^ 12 \/ 2 ^ 14 < n <= 2 ^ 16 \/ 2 ^ 18 < n)%N) /\ (F < 8 * B -> 8 * B = F + 4).
Proof.
  cbv zeta. unfold fieldSizeOf.
  repeat (match goal with |- context [(n <=? ?m)%N] => destruct (N.leb_spec n m) end; [|]);
    match goal with |- context [(?a + 7) / 8] => let v := eval vm_compute in ((a + 7) / 8) in change ((a + 7) / 8) with v end;
    (split; [lia|]); (split; [lia|]); (split; [|lia]); split; intros; try lia.
Qed.
Lemma full_rows F B r : 384 <= F <= 512 -> F = 8 * B -> rowFits F r <-> rowFitsB B r.
Proof.
  intros HFr ->. split; [by apply rowFits_bytes|]. intros (a & b & c & d & -> & Ha & Hb & Hc & Hd & Hl). exists a, b, c, d. split; [done|]. split; [done|]. split; [done|]. split; [done|].
  apply N.mul_lt_mono_pos_l with (2 ^ 384)%N; [done|]. rewrite <- N.pow_add_r. eapply N.le_lt_trans; [|eapply N.lt_le_trans; [exact Hl|apply N.pow_le_mono_r; lia]]. lia.
Qed.
