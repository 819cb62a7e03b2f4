(** Proofs about the parameters of RR16: the search and the table. *)
From Coq Require Import Reals Lra Psatz.
From Verif Require Import Base Rr16_Model AknParams_Model AknParams_Spec AknParams_Proofs AknParams_Proofs2.
Local Open Scope R_scope.

(** ** The search *)

Lemma cLoop_eq fuel nh mx h c sec : cLoop fuel nh mx h c sec =
  if Rlt_dec sec 128 then if Rlt_dec c 120 then match fuel with O => None | S fuel => cLoop fuel nh mx h (c + / 1000) (ln ((nh * (c + / 1000) / mx) ^ N.to_nat h) / ln 2) end else Some (c, sec) else Some (c, sec).
Proof. by destruct fuel. Qed.
Lemma cLoop_done fuel nh mx h c sec : 120 - c <= INR fuel * / 1000 -> exists r, cLoop fuel nh mx h c sec = Some r.
Proof.
  revert c sec. induction fuel as [|fuel IH]; intros c sec H; rewrite cLoop_eq; destruct (Rlt_dec sec 128); [|by eexists| |by eexists]; (destruct (Rlt_dec c 120); [|by eexists]).
  - cbn [INR] in H. lra.
  - apply IH. rewrite S_INR in H. lra.
Qed.
Lemma cLoop_sec fuel nh mx h c0 sec0 c sec : cLoop fuel nh mx h c0 sec0 = Some (c, sec) -> (c, sec) = (c0, sec0) \/ (c0 < c /\ sec = ln ((nh * c / mx) ^ N.to_nat h) / ln 2).
Proof.
  revert c0 sec0. induction fuel as [|fuel IH]; intros c0 sec0 H; rewrite cLoop_eq in H; destruct (Rlt_dec sec0 128); [|injection H as <- <-; by left| |injection H as <- <-; by left]; (destruct (Rlt_dec c0 120); [|injection H as <- <-; by left]); [done|].
  apply IH in H as [[= -> ->]|[Hc Hs]]; right; (split; [lra|done]).
Qed.

Definition goodChoice (n kappa : N) (ch : choice) : Prop :=
  let '(total, p, c, h, mh, thr) := ch in
  0 < p < / 10 /\ (80 <= h < 100)%N /\ 24 / 10 < c /\ mh = computeMh ((n * h) mod two64) p kappa /\ thr = computeTau mh p kappa /\
  128 <= ln ((toR ((n * h) mod two64) * c / computeMaxOnes (computeMa p thr kappa) p kappa) ^ N.to_nat h) / ln 2.
Definition goodBest (n kappa : N) (b : option choice) : Prop := match b with Some ch => goodChoice n kappa ch | None => True end.

Lemma pow17 : INR (2 ^ 17) = 131072.
Proof. rewrite pow_INR. change (INR 2) with 2. ring. Qed.
Lemma pow7 : INR (2 ^ 7) = 128.
Proof. rewrite pow_INR. change (INR 2) with 2. ring. Qed.

Lemma pLoop_eq fuel n kappa h p best : pLoop fuel n kappa h p best =
  if Rlt_dec p (/ 10) then match fuel with O => None | S fuel =>
    let minOnes := ((n * h) mod two64)%N in let '(maxOnes, mh, threshold) := compute p kappa minOnes in
    '(c, sec) ← cLoop (2 ^ 17) (toR minOnes) maxOnes h (24 / 10) 0;
    let total := toR minOnes * c / (1 - p) in
    let best := if Rlt_dec total (bestTotal best) then if Rle_dec 128 sec then Some (total, p, c, h, mh, threshold) else best else best in
    pLoop fuel n kappa h (p + / 1000) best end else Some best.
Proof. by destruct fuel. Qed.
Lemma pLoop_ok fuel n kappa h p best : (80 <= h < 100)%N -> 0 < p -> / 10 - p <= INR fuel * / 1000 -> goodBest n kappa best -> exists best', pLoop fuel n kappa h p best = Some best' /\ goodBest n kappa best'.
Proof.
  intros Hh. revert p best. induction fuel as [|fuel IH]; intros p best Hp Hf G; rewrite pLoop_eq; (destruct (Rlt_dec p (/ 10)) as [Hlt|]; [|by exists best]).
  - cbn [INR] in Hf. lra.
  - cbv zeta. unfold compute. destruct (cLoop_done (2 ^ 17) (toR ((n * h) mod two64)) (computeMaxOnes (computeMa p (computeTau (computeMh ((n * h) mod two64) p kappa) p kappa) kappa) p kappa) h (24 / 10) 0) as ([c sec] & E); [rewrite pow17; lra|].
    rewrite E. cbn [mbind option_bind]. apply IH; [lra|rewrite S_INR in Hf; lra|]. destruct (Rlt_dec _ _); [|done]. destruct (Rle_dec 128 sec) as [Hs|]; [|done]. apply cLoop_sec in E as [[= -> ->]|[Hc E]]; [lra|].
    cbn. split; [lra|]. split; [done|]. split; [done|]. split; [done|]. split; [done|]. by rewrite <- E.
Qed.
Lemma hLoop_ok hs n kappa best : Forall (fun h => 80 <= h < 100)%N hs -> goodBest n kappa best -> exists best', hLoop hs n kappa best = Some best' /\ goodBest n kappa best'.
Proof.
  intros F. revert best. induction F as [|h hs Hh F IH]; intros best G; [by exists best|]. cbn [hLoop]. destruct (pLoop_ok (2 ^ 7) n kappa h (/ 1000) best Hh) as (b & E & G'); [lra|rewrite pow7; lra|done|].
  rewrite E. cbn [mbind option_bind]. by apply IH.
Qed.

(** What the parameters achieve. *)
Definition goodParams (n k : N) (slack : N) (a : aknParams) : Prop :=
  0 < apProb a < 1 /\ (n * apHashes a + apThr a <= apOnes a)%N /\
  coins (apProb a) (N.to_nat (apOnes a)) (tooMany (apThr a)) <= exp (- toR k) /\ coins (apProb a) (N.to_nat (apOts a)) (tooFew (apOts a) (apBits a)) <= exp (- toR k) /\
  forall ones, coins (apProb a) ones (cheats (apThr a) (apHashes a) (apBits a + slack) ones) <= exp (- toR k).

Lemma coins_mono p m E E' : 0 <= p <= 1 -> (forall i, E i = true -> E' i = true) -> coins p m E <= coins p m E'.
Proof. intros Hp H. rewrite !coins_ex. apply ex_mono; [done|]. intros i _. specialize (H i). destruct (E i), (E' i); first [lra|discriminate (H eq_refl)|lra]. Qed.

Lemma formula_params n k slack a W : (0 < k)%N -> (0 < n)%N -> (0 < apHashes a)%N -> (0 < apBits a)%N -> 0 < apProb a < 1 -> apOnes a = computeMh (n * apHashes a) (apProb a) k -> apThr a = computeTau (apOnes a) (apProb a) k ->
  apOts a = computeMh (apBits a) (apProb a) k -> computeMaxOnes (computeMa (apProb a) (apThr a) k) (apProb a) k <= W -> 2 ^ 128 * W ^ N.to_nat (apHashes a) <= toR (apBits a + slack) ^ N.to_nat (apHashes a) -> goodParams n k slack a.
Proof.
  intros Hk Hn Hh Hb Hp E1 E2 E3 HW Hsec. unfold goodParams. split; [done|]. assert (0 < n * apHashes a)%N as HM by lia. split; [rewrite E2, E1; exact (mh_enough _ _ _ Hp Hk HM)|]. split; [rewrite E2; by apply tau_many|]. split.
  - eapply Rle_trans; [|apply (tau_many (apOts a) (apProb a) k Hp Hk)]. apply coins_mono; [lra|]. intros i. unfold tooFew, tooMany. intros H. apply N.ltb_lt in H. apply N.ltb_lt. pose proof (mh_enough (apBits a) (apProb a) k Hp Hk Hb) as G. rewrite <- E3 in G. lia.
  - intros ones. by apply cheat_rare with W.
Qed.

Lemma search_ok n k a : (0 < k)%N -> (0 < n)%N -> (n * 100 < 2 ^ 64)%N -> searchParams n k = Done (Some a) -> goodParams n k 1 a /\ (80 <= apHashes a < 100)%N.
Proof.
  intros Hk Hn Hw. unfold searchParams. destruct (hLoop_ok (map N.of_nat (seq 80 20)) n k None) as (best & E & G); [apply Forall_forall; intros h Hh; apply elem_of_list_fmap in Hh as (i & -> & Hi); apply elem_of_seq in Hi; lia|done|].
  rewrite E. destruct best as [[[[[[total p] c] h] mh] thr]|]; [|done]. intros H. injection H as <-. cbn in G. destruct G as (Hp & Hh & Hc & Emh & Ethr & Hsec). cbn [apHashes]. split; [|done].
  rewrite N.mod_small in * by (unfold two64; nia). set (x := toR (n * h) * c) in *.
  assert (1 <= toR (n * h)) by (rewrite <- toR_1; apply toR_le; nia). assert (24 / 10 < x) as Hx by (unfold x; nra). destruct (toU_bounds x ltac:(lra)) as [Hb1 Hb2].
  set (mx := computeMaxOnes (computeMa p thr k) p k) in *.
  apply (formula_params n k 1 _ mx); cbn [apHashes apBits apProb apOnes apThr apOts]; try done; try lra; try lia; try (split; lra).
  - apply toR_lt. change (toR 0) with 0. lra.
  - apply Rle_refl.
  - rewrite toR_add, toR_1. assert (0 <= mx) as Hmx. { unfold mx, computeMaxOnes. apply Rplus_le_le_0_compat; [|apply sqrt_pos]. apply Rmult_le_pos; [lra|apply toR_0]. }
    assert (0 < ln 2) as Hln by (rewrite <- ln_1; apply ln_increasing; lra).
    destruct (Req_dec mx 0) as [E0|D0].
    { exfalso. rewrite E0 in Hsec. unfold Rdiv in Hsec at 2. rewrite Rinv_0, Rmult_0_r, pow_i in Hsec by lia. unfold ln in Hsec. destruct (Rlt_dec 0 0); [lra|]. lra. }
    assert (0 < x / mx) as Hq by (apply Rdiv_lt_0_compat; lra). assert (0 < (x / mx) ^ N.to_nat h) as Hq2 by (by apply pow_lt).
    assert (2 ^ 128 <= (x / mx) ^ N.to_nat h) as H2.
    { destruct (Rle_or_lt (2 ^ 128) ((x / mx) ^ N.to_nat h)) as [|C]; [done|exfalso]. apply ln_increasing in C; [|done]. rewrite (ln_pow 2 ltac:(lra) 128) in C. replace (INR 128) with 128 in C by (rewrite INR_IZR_INZ; done).
      set (z := ln ((x / mx) ^ N.to_nat h)) in *. assert (z = z / ln 2 * ln 2) as Ez by (field; lra). assert (128 * ln 2 <= z / ln 2 * ln 2) by (apply Rmult_le_compat_r; [lra|exact Hsec]). lra. }
    assert (x ^ N.to_nat h = (x / mx) ^ N.to_nat h * mx ^ N.to_nat h) as Ex by (rewrite <- Rpow_mult_distr; f_equal; field; done).
    apply Rle_trans with (x ^ N.to_nat h); [rewrite Ex; apply Rmult_le_compat_r; [by apply pow_le|done]|]. apply pow_incr. lra.
Qed.
Lemma search_stops n k : searchParams n k <> OutOfFuel /\ searchParams n k <> UB.
Proof.
  unfold searchParams. destruct (hLoop_ok (map N.of_nat (seq 80 20)) n k None) as (best & E & G); [apply Forall_forall; intros h Hh; apply elem_of_list_fmap in Hh as (i & -> & Hi); apply elem_of_seq in Hi; lia|done|].
  rewrite E. by destruct best as [[[[[[total p] c] h] mh] thr]|].
Qed.

(** ** The table *)

Lemma sqrt_ge (a y : R) : a <= 0 \/ a * a <= y -> 0 <= y -> a <= R_sqrt.sqrt y.
Proof. intros H Hy. pose proof (sqrt_pos y). pose proof (sqrt_sqrt y Hy). destruct H as [|H']; [lra|]. destruct (Rle_or_lt a (R_sqrt.sqrt y)); [done|]. nra. Qed.
Lemma sqrt_lt (b y : R) : 0 < b -> y < b * b -> 0 <= y -> R_sqrt.sqrt y < b.
Proof. intros Hb H Hy. pose proof (sqrt_pos y). pose proof (sqrt_sqrt y Hy). destruct (Rlt_or_le (R_sqrt.sqrt y) b); [done|]. nra. Qed.
Lemma sqrt_scale c y : 0 <= c -> c * R_sqrt.sqrt y = R_sqrt.sqrt (c * c * y).
Proof. intros Hc. rewrite sqrt_mult_alt by nra. by rewrite sqrt_square. Qed.

(** [a <= sqrt y < a + d], for integers. *)
Definition rootIn (a d y : Z) : bool := (((a <=? 0) || (a * a <=? y)) && (0 <? a + d) && (y <? (a + d) * (a + d)) && (0 <=? y))%Z.
Lemma rootIn_ok a d y : rootIn a d y = true -> IZR a <= R_sqrt.sqrt (IZR y) < IZR a + IZR d.
Proof.
  unfold rootIn. intros H. apply andb_true_iff in H as [H Hy]. apply andb_true_iff in H as [H H3]. apply andb_true_iff in H as [H1 H2]. apply Z.leb_le in Hy. apply Z.ltb_lt in H2, H3. apply orb_true_iff in H1.
  assert (0 <= IZR y) by (by apply IZR_le). split.
  - apply sqrt_ge; [|done]. destruct H1 as [H1|H1]; apply Z.leb_le in H1; [left; by apply (IZR_le _ 0)|right; rewrite <- mult_IZR; by apply IZR_le].
  - rewrite <- plus_IZR. apply sqrt_lt; [by apply (IZR_lt 0)|rewrite <- mult_IZR; by apply IZR_lt|done].
Qed.

Definition tauCheck (q m v k : Z) : bool := rootIn (2 * (1000 * v - q * m) - 1000 * k) 2000 (1000000 * k * k + 8000 * k * q * m).
Lemma tau_check q m v k : tauCheck (Z.of_N q) (Z.of_N m) (Z.of_N v) (Z.of_N k) = true -> computeTau m (toR q / 1000) k = v.
Proof.
  intros H. apply rootIn_ok in H. apply toU_eq. unfold toR. rewrite !minus_IZR, !plus_IZR, !mult_IZR, !minus_IZR, !mult_IZR in H. set (Q := IZR (Z.of_N q)) in *. set (m' := IZR (Z.of_N m)) in *. set (v' := IZR (Z.of_N v)) in *. set (k' := IZR (Z.of_N k)) in *.
  replace (1000000 * k' * k' + 8000 * k' * Q * m') with (1000 * 1000 * (k' * k' + 8 * k' * (Q / 1000) * m')) in H by field. rewrite <- sqrt_scale in H by lra. lra.
Qed.
Definition mhCheck (q M v k : Z) : bool :=
  (let num := 2 * (1000 - q) * (1000 - q) in let E := 1000 * k * q + 1000000 * k - 2000 * M * q + 2000000 * M in
  (q <? 1000) && rootIn (v * num - E) num (k * (2000000000000 * k + 1000000 * q * q + 2000000000 * k * q + 8000000 * M * q * (1000 - q))))%Z.
Lemma mh_check q M v k : mhCheck (Z.of_N q) (Z.of_N M) (Z.of_N v) (Z.of_N k) = true -> computeMh M (toR q / 1000) k = v.
Proof.
  unfold mhCheck. cbv zeta. intros H. apply andb_true_iff in H as [Hq H]. apply Z.ltb_lt in Hq. apply rootIn_ok in H. apply toU_eq. unfold toR. repeat rewrite ?minus_IZR, ?plus_IZR, ?mult_IZR in H.
  apply IZR_lt in Hq. assert (0 <= IZR (Z.of_N k)) by (apply IZR_le; lia). set (Q := IZR (Z.of_N q)) in *. set (m' := IZR (Z.of_N M)) in *. set (v' := IZR (Z.of_N v)) in *. set (k' := IZR (Z.of_N k)) in *. rewrite <- sqrt_mult_alt by done.
  set (D := k' + Q / 1000 * (Q / 1000) + 2 * k' * (Q / 1000) + k' - 8 * m' * (Q / 1000) * (Q / 1000) + 8 * m' * (Q / 1000)).
  replace (k' * (2000000000000 * k' + 1000000 * Q * Q + 2000000000 * k' * Q + 8000000 * m' * Q * (1000 - Q))) with (1000000 * 1000000 * (k' * D)) in H by (unfold D; field). rewrite <- sqrt_scale in H by lra.
  set (S := R_sqrt.sqrt (k' * D)) in *. set (num := 2 * (1000 - Q) * (1000 - Q)) in *. assert (0 < num) as Hnum by (unfold num; nra).
  replace (2 * (Q / 1000 * (Q / 1000) - 2 * (Q / 1000) + 1)) with (num / 1000000) by (unfold num; field). set (x := (S + k' * (Q / 1000) + k' - 2 * m' * (Q / 1000) + 2 * m') / (num / 1000000)).
  assert (num * x = 1000000 * S + (1000 * k' * Q + 1000000 * k' - 2000 * m' * Q + 2000000 * m')) as Ex by (unfold x; field; lra). split; [apply (Rmult_le_reg_l num); [done|]|apply (Rmult_lt_reg_l num); [done|]]; rewrite Ex; lra.
Qed.
Definition maxCheck (q t W k : Z) : bool := (let b := (W + t) * q - 1000 * (k + t) in (0 <=? b) && (1000000 * (k * k + 2 * k * t) <=? b * b))%Z.
Lemma max_check q t W k : (0 < q < 1000)%N -> (0 < k)%N -> maxCheck (Z.of_N q) (Z.of_N t) (Z.of_N W) (Z.of_N k) = true ->
  computeMaxOnes (computeMa (toR q / 1000) t k) (toR q / 1000) k <= toR W.
Proof.
  intros Hq Hk H. apply andb_true_iff in H as [Hb H]. apply Z.leb_le in Hb, H. apply IZR_le in Hb, H.
  assert (0 < toR q) by (apply (toR_lt 0); lia). assert (toR q < 1000) by (change 1000 with (toR 1000); apply toR_lt; lia). set (p := toR q / 1000). assert (0 < p < 1) as Hp by (unfold p; lra).
  destruct (ma_root p t k Hp Hk) as (root & Hr & [Hr1 _] & Er & Es & _). eapply Rle_trans; [by apply (max_root p t k root)|]. repeat rewrite ?minus_IZR, ?plus_IZR, ?mult_IZR in Hb. repeat rewrite ?minus_IZR, ?plus_IZR, ?mult_IZR in H. fold (toR q) (toR t) (toR W) (toR k) in Hb, H.
  set (s := R_sqrt.sqrt (toR k * toR k + 2 * toR k * toR t)) in *. pose proof (toR_0 t). assert (0 < toR k) by (apply (toR_lt 0); lia). assert (s * s = toR k * toR k + 2 * toR k * toR t) as Hs by (apply sqrt_sqrt; nra). assert (0 <= s) by apply sqrt_pos.
  assert (1000 * s <= (toR W + toR t) * toR q - 1000 * (toR k + toR t)) as G.
  { set (b := (toR W + toR t) * toR q - 1000 * (toR k + toR t)) in *. rewrite <- Hs in H. clear -Hb H H4. destruct (Rle_or_lt (1000 * s) b) as [|C]; [done|]. nra. }
  apply (Rmult_le_reg_l (toR q)); [done|]. assert (toR q * root = 1000 * (toR k + toR t + s)) as E by (rewrite <- Es; unfold p; field). lra.
Qed.

(** Powers with 24 binary places, rounded down. *)
Fixpoint fpow (x : N) (p : positive) : N :=
  match p with
  | xH => x
  | xO p => let y := fpow x p in N.shiftr (y * y) 24
  | xI p => let y := fpow x p in N.shiftr (N.shiftr (y * y) 24 * x) 24
  end.
Lemma shift_le a : (N.shiftr a 24 * 2 ^ 24 <= a)%N.
Proof. rewrite N.shiftr_div_pow2. rewrite N.mul_comm. apply N.mul_div_le. done. Qed.
Lemma fpow_le x p : (fpow x p * (2 ^ 24) ^ (N.pos p - 1) <= x ^ N.pos p)%N.
Proof.
  set (F := (2 ^ 24)%N). induction p as [p IH|p IH|]; cbn [fpow].
  - set (y := fpow x p) in *. replace (N.pos p~1 - 1)%N with ((N.pos p - 1) + (N.pos p - 1) + 2)%N by lia. replace (N.pos p~1) with (N.pos p + N.pos p + 1)%N by lia. rewrite !N.pow_add_r, N.pow_1_r, N.pow_2_r.
    pose proof (shift_le (y * y)) as H1. pose proof (shift_le (N.shiftr (y * y) 24 * x)) as H2. fold F in H1, H2. set (z := N.shiftr (y * y) 24) in *. set (w := N.shiftr (z * x) 24) in *. set (G := (F ^ (N.pos p - 1))%N) in *.
    apply N.le_trans with (y * G * (y * G) * x)%N; [|apply N.mul_le_mono_r; by apply N.mul_le_mono]. clear IH. replace (w * (G * G * (F * F)))%N with (w * F * (G * G * F))%N by lia. apply N.le_trans with (z * x * (G * G * F))%N; [by apply N.mul_le_mono_r|].
    replace (z * x * (G * G * F))%N with (z * F * (G * G * x))%N by lia. replace (y * G * (y * G) * x)%N with (y * y * (G * G * x))%N by lia. by apply N.mul_le_mono_r.
  - set (y := fpow x p) in *. replace (N.pos p~0 - 1)%N with ((N.pos p - 1) + (N.pos p - 1) + 1)%N by lia. replace (N.pos p~0) with (N.pos p + N.pos p)%N by lia. rewrite !N.pow_add_r, N.pow_1_r.
    pose proof (shift_le (y * y)) as H1. fold F in H1. set (z := N.shiftr (y * y) 24) in *. set (G := (F ^ (N.pos p - 1))%N) in *. apply N.le_trans with (y * G * (y * G))%N; [|by apply N.mul_le_mono].
    replace (z * (G * G * F))%N with (z * F * (G * G))%N by lia. replace (y * G * (y * G))%N with (y * y * (G * G))%N by lia. by apply N.mul_le_mono_r.
  - rewrite N.sub_diag, N.pow_0_r, N.pow_1_r. lia.
Qed.
Definition powCheck (W h bf : N) : bool := match h with N.pos p => (2 ^ 152 <=? fpow (bf * 2 ^ 24 / W) p)%N && (0 <? W)%N | _ => false end.
Lemma powCheck_ok W h bf : powCheck W h bf = true -> (2 ^ 128 * W ^ h <= bf ^ h)%N.
Proof.
  destruct h as [|p]; [done|]. unfold powCheck. intros H. apply andb_true_iff in H as [H HW]. apply N.leb_le in H. apply N.ltb_lt in HW. set (x := (bf * 2 ^ 24 / W)%N) in *. pose proof (fpow_le x p) as L.
  assert (W * x <= bf * 2 ^ 24)%N as Hx by (apply N.mul_div_le; lia). replace (2 ^ 152)%N with (2 ^ 128 * 2 ^ 24)%N in H by done. set (F := (2 ^ 24)%N) in *. assert (0 < F)%N as HF by done. set (C := (2 ^ 128)%N) in *. clearbody F C x.
  assert (C * F ^ N.pos p <= x ^ N.pos p)%N as H1. { replace (F ^ N.pos p)%N with (F * F ^ (N.pos p - 1))%N by (rewrite <- N.pow_succ_r'; f_equal; lia). rewrite N.mul_assoc. eapply N.le_trans; [|exact L]. by apply N.mul_le_mono_r. }
  apply (N.pow_le_mono_l _ _ (N.pos p)) in Hx. rewrite !N.pow_mul_l in Hx. assert (F ^ N.pos p <> 0)%N as HF0 by (apply N.pow_nonzero; lia). apply (N.mul_le_mono_pos_r _ _ (F ^ N.pos p)); [lia|]. eapply N.le_trans; [|exact Hx].
  replace (C * W ^ N.pos p * F ^ N.pos p)%N with (W ^ N.pos p * (C * F ^ N.pos p))%N by lia. by apply N.mul_le_mono_l.
Qed.

Definition tableBound (q t : N) : N := (1000 * (40 + t) + N.sqrt (1000000 * (1600 + 80 * t)) + 1) / q + 1 - t.
Definition entryOk (e : N * (N * N * N * N * N)) (q : N) : bool :=
  let '(n, (ots, ones, thr, h, bf)) := e in
  mhCheck (Z.of_N q) (Z.of_N (N.max n 4 * h)) (Z.of_N ones) (Z.of_N 40) && tauCheck (Z.of_N q) (Z.of_N ones) (Z.of_N thr) (Z.of_N 40) && mhCheck (Z.of_N q) (Z.of_N bf) (Z.of_N ots) (Z.of_N 40) &&
  maxCheck (Z.of_N q) (Z.of_N thr) (Z.of_N (tableBound q thr)) (Z.of_N 40) && powCheck (tableBound q thr) h bf && (0 <? h)%N && (0 <? bf)%N && (0 <? n)%N && (0 <? q)%N && (q <? 1000)%N.
Lemma table_ok : forallb (fun '(e, q) => entryOk e q) (zip aknTable aknProbs) = true.
Proof. by vm_compute. Qed.
Lemma aknTableR_in n a : (n, a) ∈ aknTableR -> exists ots ones thr h bf q, a = mkAkn ots ones thr (toR q / 1000) h bf /\ entryOk (n, (ots, ones, thr, h, bf)) q = true.
Proof.
  unfold aknTableR. rewrite zip_with_zip. intros H. apply elem_of_list_fmap in H as ([[n' [[[[ots ones] thr] h] bf]] q] & E & Hin). cbn in E. injection E as -> ->. exists ots, ones, thr, h, bf, q. split; [done|].
  pose proof table_ok as T. rewrite forallb_forall in T. apply elem_of_list_In in Hin. exact (T _ Hin).
Qed.
Lemma table_formulas n a : (n, a) ∈ aknTableR -> apOnes a = computeMh (N.max n 4 * apHashes a) (apProb a) 40 /\ apThr a = computeTau (apOnes a) (apProb a) 40 /\ apOts a = computeMh (apBits a) (apProb a) 40.
Proof.
  intros H. apply aknTableR_in in H as (ots & ones & thr & h & bf & q & -> & E). unfold entryOk in E. do 9 (apply andb_true_iff in E as [E ?]). cbn [apOnes apHashes apProb apThr apBits apOts].
  split; [|split]; symmetry; [by apply mh_check|by apply tau_check|by apply mh_check].
Qed.
Lemma table_params n a : (n, a) ∈ aknTableR -> goodParams n 40 0 a.
Proof.
  intros H. pose proof (table_formulas n a H) as (E1 & E2 & E3). apply aknTableR_in in H as (ots & ones & thr & h & bf & q & -> & E). unfold entryOk in E. do 9 (apply andb_true_iff in E as [E ?]).
  repeat match goal with H : (_ <? _)%N = true |- _ => apply N.ltb_lt in H | H : powCheck _ _ _ = true |- _ => apply powCheck_ok in H end.
  assert (0 < toR q) by (apply (toR_lt 0); lia). assert (toR q < 1000) by (change 1000 with (toR 1000); apply toR_lt; lia).
  assert (goodParams (N.max n 4) 40 0 (mkAkn ots ones thr (toR q / 1000) h bf)) as (G1 & G2 & G).
  { apply (formula_params (N.max n 4) 40 0 _ (toR (tableBound q thr))); try done; try lia.
    - cbn [apProb]. lra.
    - cbn [apProb apThr]. by apply max_check.
    - cbn [apHashes apBits]. rewrite N.add_0_r. assert (2 ^ 128 = toR (2 ^ 128)) as -> by (rewrite toR_pow; done). rewrite <- !toR_pow, <- toR_mul. by apply toR_le. }
  split; [done|]. split; [|done]. cbn [apHashes apThr apOnes] in *. nia.
Qed.
Lemma params_ok n k a : (0 < k)%N -> (0 < n)%N -> (n * 100 < 2 ^ 64)%N -> computeAknBfParams n k = Done (Some a) -> goodParams n k 1 a.
Proof.
  intros Hk Hn Hw. unfold computeAknBfParams. destruct (N.eqb_spec k 40) as [->|]; [|intros H; by apply search_ok in H as [? _]].
  destruct (list_find _ _) as [[i [n' a']]|] eqn:F; [|intros H; by apply search_ok in H as [? _]]. intros [= ->]. apply list_find_Some in F as (Hi & Hn' & _). cbn in Hn'. subst n'.
  apply elem_of_list_lookup_2, table_params in Hi as (G1 & G2 & G3 & G4 & G5). split; [done|]. split; [done|]. split; [done|]. split; [done|]. intros ones. eapply Rle_trans; [|apply (G5 ones)]. apply coins_mono; [lra|].
  intros i'. unfold cheats. rewrite N.add_0_r. intros E. apply andb_true_iff in E as [E1 E2]. rewrite E1. cbn [andb]. apply N.ltb_lt in E2. apply N.ltb_lt. assert (apBits a ^ apHashes a <= (apBits a + 1) ^ apHashes a)%N by (apply N.pow_le_mono_l; lia). lia.
Qed.
