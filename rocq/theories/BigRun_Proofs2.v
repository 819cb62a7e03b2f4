(** Proofs about complete runs with the big polynomial: short steps, and a case with 68 items modulo 71. *)
From stdpp Require Import sorting.
From Verif Require Import Base Partition_Model Ecdh_Model File_Model File_Spec Balanced_Model Prty_Model Prty_Spec PolyTree_Model PolyTree_Spec PolyBig_Model PolyBig_Spec PolyBig_Proofs PrtyDiff_Model PrtyDiff_Spec PrtyDiff_Proofs PrtyDiff_Proofs2 BigRun_Model BigRun_Spec BigRun_Proofs.
From Verif Require Prty_Proofs.
Local Open Scope nat_scope.

(** * Short steps *)
Lemma short_size b h c : 0 < h -> h <= b -> c <= 49 -> bufSize c h < b + h * c.
Proof.
  intros H0 Hb Hc. unfold bufSize. assert (102 * N.of_nat c * N.of_nat h / 100 < N.of_nat (b + h * c))%N as H; [|lia]. apply N.div_lt_upper_bound; [done|]. rewrite Nat2N.inj_add, Nat2N.inj_mul. nia.
Qed.
Lemma short_send h b step T t ms ss s c : 0 < h -> h <= 16 -> h <= b -> 0 < step -> t < T -> diffSteps step (length ms) T t = Some ss -> (s, c) ∈ ss -> c <= 49 -> sendBig h b step T t ms = UB.
Proof.
  intros H0 H16 Hhb Hst Ht Ess Hin Hc. destruct (proj2 (big_ok h b step T t ms) ss Ess) as [[_ H]|(msgs & Em & HF)]; [exact H|]. exfalso.
  apply elem_of_list_lookup in Hin as [q Hq]. destruct (Forall2_lookup_l _ _ _ _ _ HF Hq) as (m & _ & E). cbn [fst snd] in E.
  assert (s + c < length ms) as Hlt by (apply (steps_in ms step T t ss s c Hst Ht Ess); by eapply elem_of_list_lookup_2).
  rewrite encode_exact in E; [|done|rewrite take_length, drop_length; lia]. replace (length (take (c + 1) (drop s ms)) - 1) with c in E by (rewrite take_length, drop_length; lia).
  pose proof (short_size b h c H0 Hhb Hc). replace (_ <=? _) with false in E by (symmetry; apply Nat.leb_gt; lia). done.
Qed.
Lemma exchange_ub e h b step T m ms ts t : sendBig h b step T t ms = UB -> t ∈ ts -> forall out, exchangeMasks e h b step T m ms ts <> Done out.
Proof.
  intros E Hin. induction ts as [|t' ts IH]; intros out Eo; [by apply elem_of_nil in Hin|]. cbn [exchangeMasks] in Eo. apply elem_of_cons in Hin as [<-|Hin]; [by rewrite E in Eo|].
  destruct (sendBig h b step T t' ms) as [msgs| | |]; [|done..]. destruct (recvBig e h b step T (length ms) t' m msgs); [|by destruct (exchangeMasks e h b step T m ms ts)..].
  destruct (exchangeMasks e h b step T m ms ts) as [l'| | |]; [|done..]. by apply (IH Hin l').
Qed.
Lemma run_short P e a0 a1 a2 step T xs zs t ss s c : (forall l, eSort e l ≡ₚ l) -> 2 <= length xs -> length xs <= length zs -> (N.of_nat (length xs) < 2 ^ 64)%N -> 0 < step -> t < T ->
  diffSteps step (length zs) T t = Some ss -> (s, c) ∈ ss -> c <= 49 -> forall out, bigRun P e a0 a1 a2 step T xs zs <> Done out.
Proof.
  intros HeS Hx Hz H64 Hst Ht Ess Hin Hc out E. destruct (hb_range (N.of_nat (length xs)) (N.of_nat (length zs)) ltac:(lia) H64) as (H4 & H16 & Hhb). unfold bigRun in E.
  set (y0 := map _ xs) in E at 1. set (r0 := runSlice a0 _ _ _ _ _ _ _) in E. set (r1 := runSlice a1 _ _ _ _ _ _ _) in E. set (r2 := runSlice a2 _ _ _ _ _ _ _) in E. clearbody r0 r1 r2.
  destruct r0 as [o0| | |], r1 as [o1| | |], r2 as [o2| | |]; try done. revert E. set (gh := bigMasks _ _ _ _ _ _ _). assert (length (eSort e gh) = length zs) as El by (rewrite (HeS gh); unfold gh, bigMasks; apply imap_length).
  rewrite <- El in Ess. apply (exchange_ub _ _ _ _ _ _ _ _ t); [|apply elem_of_seq; lia]. apply (short_send _ _ _ _ _ _ ss s c); [lia|done..].
Qed.

(** * A field *)
Section zp.
Context (p : N) (inv : N -> N) (Hp : (1 < p)%N) (Hinv : forall a, (a < p)%N -> a <> 0%N -> (a * inv a mod p = 1)%N).
Definition zT : Type := { n : N | (n <? p)%N = true }.
Lemma z_lt n : (n mod p <? p)%N = true.
Proof using Hp. clear inv Hinv. apply N.ltb_lt. apply N.mod_lt. lia. Qed.
Definition zOf (n : N) : zT := exist _ (n mod p)%N (z_lt n).
Definition zRep (a : zT) : N := proj1_sig a.
Definition zOps : fops := mkFops zT (zOf 0) (zOf 1) (fun a b => zOf (zRep a + zRep b)) (fun a b => zOf (zRep a * zRep b)) (fun a b => zOf (zRep a + (p - zRep b))) (fun a => zOf (p - zRep a)) (fun a => zOf (inv (zRep a))) (fun a b => (zRep a =? zRep b)%N).
Lemma z_eq (a b : zT) : zRep a = zRep b -> a = b.
Proof using. clear. destruct a as [a Ha], b as [b Hb]. cbn. intros ->. f_equal. apply Eqdep_dec.UIP_dec, Bool.bool_dec. Qed.
Lemma z_rep a : (zRep a < p)%N.
Proof using. clear. destruct a as [a Ha]. cbn. by apply N.ltb_lt. Qed.
Lemma z_id a : zOf (zRep a) = a.
Proof using. clear inv Hinv. apply z_eq. unfold zOf. cbn. apply N.mod_small. apply z_rep. Qed.
Lemma zp_modular : modular zOps zRep zOf p.
Proof using Hinv.
  assert (p <> 0)%N as P0 by lia. assert (forall n, zRep (zOf n) = n mod p)%N as HR by done.
  assert (forall a b : zT, zRep a = zRep b -> a = b) as HE by exact z_eq.
  split; [|split; [exact z_rep|split; [exact z_id|split; [exact HR|split; intros a b; reflexivity]]]].
  split.
  - constructor.
    + constructor; cbn [fT f0 f1 fadd fmul fsub fopp zOps]; intros; apply z_eq; rewrite ?HR.
      * rewrite N.mod_0_l by done. rewrite N.add_0_l. apply N.mod_small, z_rep.
      * by rewrite N.add_comm.
      * rewrite N.add_mod_idemp_l, N.add_mod_idemp_r by done. by rewrite N.add_assoc.
      * rewrite (N.mod_small 1) by lia. rewrite N.mul_1_l. apply N.mod_small, z_rep.
      * by rewrite N.mul_comm.
      * rewrite N.mul_mod_idemp_l, N.mul_mod_idemp_r by done. by rewrite N.mul_assoc.
      * rewrite N.mul_mod_idemp_l by done. rewrite <- N.add_mod by done. by rewrite N.mul_add_distr_r.
      * rewrite N.add_mod_idemp_r by done. done.
      * rewrite N.add_mod_idemp_r by done. pose proof (z_rep x). replace (zRep x + (p - zRep x))%N with p by lia. rewrite N.mod_same by done. by rewrite N.mod_0_l.
    + cbn [f1 f0 zOps]. intros E. apply (f_equal zRep) in E. rewrite !HR in E. rewrite N.mod_small, N.mod_0_l in E by lia. done.
    + done.
    + cbn [f0 fmul finv f1 zOps]. intros a Ha. apply z_eq. rewrite !HR. rewrite N.mul_mod_idemp_l by done. rewrite (N.mul_comm (inv _)). rewrite Hinv; [by rewrite N.mod_small by lia|apply z_rep|].
      intros E. apply Ha. apply z_eq. rewrite E, HR. by rewrite N.mod_0_l.
  - cbn [feqb zOps]. intros a b. rewrite N.eqb_eq. split; [apply z_eq|by intros ->].
Qed.
End zp.
Definition inv71 (a : N) : N := (a ^ 69 mod 71)%N.
Lemma inv71_ok a : (a < 71)%N -> a <> 0%N -> (a * inv71 a mod 71 = 1)%N.
Proof.
  intros H H0. assert (forallb (fun k => (N.of_nat k =? 0)%N || (N.of_nat k * inv71 (N.of_nat k) mod 71 =? 1)%N) (seq 0 71) = true) as Hall by (vm_compute; reflexivity).
  rewrite forallb_forall in Hall. specialize (Hall (N.to_nat a)). rewrite N2Nat.id in Hall. assert (In (N.to_nat a) (seq 0 71)) as Hin by (apply in_seq; lia). specialize (Hall Hin).
  apply orb_true_iff in Hall as [E|E]; apply N.eqb_eq in E; [done|exact E].
Qed.
Lemma one71 : (1 < 71)%N. Proof. reflexivity. Qed.
Definition K71 : fops := zOps 71 inv71 one71.
Definition rep71 : fT K71 -> N := zRep 71.
Definition of71 : N -> fT K71 := zOf 71 one71.
Lemma K71_modular : modular K71 rep71 of71 71.
Proof. exact (zp_modular 71 inv71 one71 inv71_ok). Qed.

(** * The case: the polynomial is the power 67; the row of [x] is [x] in the first block, and the values of the polynomial in the first three blocks of the difference. *)
Definition q71 : list (fT K71) := replicate 67 (f0 K71) ++ [f1 K71].
Definition v71 (x : N) : N := rep71 (evalAt K71 q71 (of71 x)).
Definition P71 : prty := mkPrty (fun k x => if k <? 128 then x else 0%N) (fun k x => if k <? 128 then N.lxor x (v71 x) else if k <? 384 then v71 x else 0%N)
  (fun k => Nat.even k) (fun x => (x mod 2 ^ 128)%N) (fun _ _ => []).
Definition xs71 : list N := map N.of_nat (seq 0 68).
Definition s71 : slice := mkSlice K71 rep71 of71 (mkScheds [] [] [] [] [] (fun _ => []) (fun _ => []) (fun _ => []) (fun _ => []) (fun _ => [])) (replicate 67 []) (replicate 135 []).
Definition e71 : bigEnv := mkBigEnv (fun j => N.of_nat j) (fun l => l) (merge_sort N.le) (fun _ _ i => 7%N) 1000 2000.
Lemma blk_const aes F j x v : (v < 2 ^ 128)%N -> (forall k, 128 * j + k < F -> k < 128 -> N.testbit (aes (128 * j + k) x) (N.of_nat k) = N.testbit v (N.of_nat k)) -> 128 * j + 128 <= F -> prfBlk aes F j x = v.
Proof.
  intros Hv H HF. apply N.bits_inj. intros k. destruct (N.lt_ge_cases k 128) as [Hk|Hk].
  - rewrite <- (N2Nat.id k). rewrite Prty_Proofs.prfBlk_bit by lia. replace (_ <? F) with true by (symmetry; apply Nat.ltb_lt; lia). cbn [andb]. apply H; lia.
  - rewrite Prty_Proofs.prfBlk_high by done. symmetry. destruct (N.eq_dec v 0) as [->|H0]; [apply N.bits_0|]. apply N.bits_above_log2. apply N.log2_lt_pow2 in Hv; lia.
Qed.
Lemma blk_zero aes F j x : (forall k, k < 128 -> N.testbit (aes (128 * j + k) x) (N.of_nat k) = false) -> prfBlk aes F j x = 0%N.
Proof.
  intros H. apply N.bits_inj. intros k. rewrite N.bits_0. destruct (N.lt_ge_cases k 128) as [Hk|Hk]; [|by apply Prty_Proofs.prfBlk_high].
  rewrite <- (N2Nat.id k). rewrite Prty_Proofs.prfBlk_bit by lia. rewrite H by lia. apply andb_false_r.
Qed.
Lemma v71_lt x : (v71 x < 2 ^ 128)%N.
Proof. unfold v71. pose proof (z_rep 71 (evalAt K71 q71 (of71 x))) as H. apply N.lt_trans with 71%N; [exact H|reflexivity]. Qed.
Lemma big71 n x : (x < 2 ^ 128)%N -> bigRow P71 (fieldSizeOf n) x = [v71 x; v71 x; v71 x; 0%N] /\ recvMask P71 (fieldSizeOf n) x = x.
Proof.
  intros Hx. pose proof (Prty_Proofs.fieldSize_range n) as HF. set (F := fieldSizeOf n) in *. pose proof (v71_lt x) as Hv.
  assert (prfRow (aesT P71) F x = [x; 0; 0; 0]%N) as ET.
  { assert (forall j, 0 < j -> prfBlk (aesT P71) F j x = 0%N) as Hz. { intros j Hj. apply blk_zero. intros k Hk. cbn [aesT P71]. replace (128 * j + k <? 128) with false by (symmetry; apply Nat.ltb_ge; lia). apply N.bits_0. }
    assert (prfBlk (aesT P71) F 0 x = x) as H0. { apply blk_const; [done| |lia]. intros k _ Hk. cbn [aesT P71]. by replace (128 * 0 + k <? 128) with true by (symmetry; apply Nat.ltb_lt; lia). }
    unfold prfRow. cbn [seq map]. by rewrite H0, !Hz by lia. }
  assert (prfRow (aesU P71) F x = [N.lxor x (v71 x); v71 x; v71 x; 0]%N) as EU.
  { assert (prfBlk (aesU P71) F 0 x = N.lxor x (v71 x)) as H0. { apply blk_const; [by apply lxor_lt| |lia]. intros k _ Hk. cbn [aesU P71]. by replace (128 * 0 + k <? 128) with true by (symmetry; apply Nat.ltb_lt; lia). }
    assert (forall j, 0 < j < 3 -> prfBlk (aesU P71) F j x = v71 x) as H1.
    { intros j Hj. apply blk_const; [done| |lia]. intros k _ Hk. cbn [aesU P71]. replace (128 * j + k <? 128) with false by (symmetry; apply Nat.ltb_ge; lia). by replace (128 * j + k <? 384) with true by (symmetry; apply Nat.ltb_lt; lia). }
    assert (prfBlk (aesU P71) F 3 x = 0%N) as H3.
    { apply blk_zero. intros k Hk. cbn [aesU P71]. replace (128 * 3 + k <? 128) with false by (symmetry; apply Nat.ltb_ge; lia). replace (128 * 3 + k <? 384) with false by (symmetry; apply Nat.ltb_ge; lia). apply N.bits_0. }
    unfold prfRow. cbn [seq map]. by rewrite H0, !H1, H3 by lia. }
  split.
  - unfold bigRow. rewrite ET, EU. unfold xorRows. cbn [zip_with]. rewrite <- N.lxor_assoc, N.lxor_nilpotent. by rewrite !N.lxor_0_l.
  - unfold recvMask. rewrite Prty_Proofs.trunc_id by done. rewrite ET. unfold maskOfRow. cbn [map foldr]. change (henc P71) with (fun x => (x mod 2 ^ 128)%N). cbn beta. rewrite (N.mod_small x) by done.
    assert (0 mod 2 ^ 128 = 0)%N as E0 by (vm_compute; reflexivity). rewrite E0. by rewrite !N.lxor_0_r.
Qed.
Lemma xs71_small x : x ∈ xs71 -> (x < 68)%N.
Proof. intros H. apply elem_of_list_fmap in H as (i & -> & Hi). apply elem_of_seq in Hi. lia. Qed.
Lemma vals71 j : valsOf P71 (fieldSizeOf 68) j xs71 = map v71 xs71.
Proof.
  unfold valsOf. apply map_ext_in. intros x Hx. apply elem_of_list_In in Hx. apply xs71_small in Hx. assert (x < 2 ^ 128)%N as Hx' by (apply N.lt_trans with 68%N; [exact Hx|reflexivity]). destruct (big71 68 x Hx') as [-> _].
  destruct j as [|[|j]]; cbn [sliceVal nth]; [done|done|]. rewrite N.mul_0_r, N.add_0_r. apply N.mod_small. pose proof (z_rep 71 (evalAt K71 q71 (of71 x))) as H. apply N.lt_trans with 71%N; [exact H|vm_compute; reflexivity].
Qed.
Lemma good71 lim j : (71 <= lim)%N -> sliceGood s71 71 lim xs71 (valsOf P71 (fieldSizeOf 68) j xs71).
Proof.
  intros Hl. split; [exact K71_modular|]. split. { apply Forall_forall. intros x Hx. apply xs71_small in Hx. lia. } split; [done|]. split; [done|]. exists q71. split.
  - intros q a E. apply app_inj_tail in E as [_ <-]. intros E. apply (f_equal rep71) in E. done.
  - split; [done|]. split; [apply Forall_true; intros a; pose proof (z_rep 71 a) as H; change (sRep s71 a) with (zRep 71 a); lia|]. unfold through. by rewrite vals71.
Qed.
Lemma case71 : exists out, bigRun P71 e71 s71 s71 s71 100 1 xs71 (reverse xs71) = Done out /\ forall i, i < 68 -> i ∈ out.
Proof.
  assert (length xs71 = 68) as El by done. assert (N.of_nat (length xs71) = 68%N) as En by done. assert (length (reverse xs71) = 68) as Er by done.
  destruct (run_ok P71 e71 s71 s71 s71 71 71 71 100 0 xs71 (reverse xs71)) as (o0 & o1 & o2 & _ & _ & _ & Hgh & Hrun).
  - apply (bool_decide_unpack _). vm_compute. exact I.
  - by rewrite El, Er.
  - by rewrite En.
  - rewrite El. cbn. lia.
  - lia.
  - split; [done|]. split; [intros l; cbn; apply merge_sort_Permutation|]. done.
  - intros x. cbn [henc P71]. apply N.mod_lt. by apply N.pow_nonzero.
  - rewrite En. apply good71. vm_compute. discriminate.
  - rewrite En. apply good71. vm_compute. discriminate.
  - rewrite En. apply good71. vm_compute. discriminate.
  - rewrite En. assert (map (fun x => key32 (recvMask P71 (fieldSizeOf 68) x)) xs71 = xs71) as ->; [|apply (bool_decide_unpack _); vm_compute; exact I].
    rewrite <- (map_id xs71) at 2. apply map_ext_in. intros x Hx. apply elem_of_list_In in Hx. apply xs71_small in Hx. assert (x < 2 ^ 128)%N as Hx' by (apply N.lt_trans with 68%N; [exact Hx|reflexivity]). destruct (big71 68 x Hx') as [_ ->].
    unfold key32. apply N.mod_small. apply N.lt_trans with 68%N; [exact Hx|reflexivity].
  - rewrite En in Hgh, Hrun. rewrite El, Er in *. set (gh := bigMasks _ _ _ _ _ _ _) in *.
    assert (gh = reverse xs71) as Eg.
    { apply list_eq. intros j. destruct (reverse xs71 !! j) as [x|] eqn:Ej.
      - pose proof (lookup_lt_Some _ _ _ Ej) as Hj. rewrite Er in Hj. pose proof (elem_of_list_lookup_2 _ _ _ Ej) as Hx. rewrite elem_of_reverse in Hx.
        rewrite (Hgh j x Hj Ej Hx). f_equal. apply big71. apply xs71_small in Hx. apply N.lt_trans with 68%N; [exact Hx|reflexivity].
      - apply lookup_ge_None. apply lookup_ge_None in Ej. rewrite Er in Ej. unfold gh, bigMasks. by rewrite imap_length, Er. }
    rewrite Eg in Hrun. assert (eSort e71 (reverse xs71) = xs71) as Es by (vm_compute; reflexivity). rewrite Es in Hrun. destruct Hrun as (out & Eo & Hc & _).
    + intros t ss s c Ht Ess Hin. change (2 ^ 0) with 1 in *. replace t with 0 in Ess by lia. assert (diffSteps 100 (length xs71) 1 0 = Some [(0, 67)]) as E1 by (vm_compute; reflexivity). rewrite E1 in Ess. injection Ess as <-.
      apply elem_of_list_singleton in Hin. injection Hin as -> ->.
      assert (hBytes 68 = 6) as Eh by (vm_compute; reflexivity). assert (bBytes 68 (N.of_nat 68) = 7) as Eb by (vm_compute; reflexivity). rewrite Eh, Eb.
      assert (take (67 + 1) (drop 0 xs71) = xs71) as Et by (vm_compute; reflexivity). rewrite Et. split; [apply Nat.ltb_lt; vm_compute; reflexivity|].
      assert (forall ms, forallb (fun p => negb (low 6 p.1 =? low 6 p.2)%N) (zip ms (tail ms)) = true -> distinctLow 6 ms) as G.
      { clear. induction ms as [|m [|m' ms] IH]; [done|done|]. intros H. cbn [tail zip zip_with forallb fst snd] in H. apply andb_true_iff in H as [H1 H2]. split; [by apply negb_true_iff, N.eqb_neq in H1|by apply IH]. }
      apply G. vm_compute. reflexivity.
    + exists out. split; [exact Eo|]. intros i Hi. assert (xs71 !! i = Some (N.of_nat i)) as Hx. { unfold xs71. rewrite list_lookup_fmap, lookup_seq_lt by lia. done. }
      assert (N.of_nat i ∈ reverse xs71) as Hr by (apply elem_of_reverse; by eapply elem_of_list_lookup_2). apply elem_of_list_lookup in Hr as [j Hj].
      apply (Hc i j (N.of_nat i) Hx Hj). pose proof (lookup_lt_Some _ _ _ Hj). by rewrite Er in *.
Qed.
