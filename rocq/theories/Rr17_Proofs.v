(** Lemmas about the parts shared by RR17a, RR17b and GRR18. *)
From Verif Require Import Base Partition_Model Ecdh_Proofs Rr17_Model.

(** ** Phasing *)

Lemma lor_add_shift a r k : a < 2 ^ k -> N.lor a (r * 2 ^ k) = a + r * 2 ^ k.
Proof.
  intros Ha. assert (N.land a (r * 2 ^ k) = 0) as L.
  { apply N.bits_inj. intros i. rewrite N.land_spec, N.bits_0, <- N.shiftl_mul_pow2. destruct (N.ltb_spec i k).
    - rewrite N.shiftl_spec_low by done. by rewrite andb_false_r.
    - rewrite <- (N.mod_small a (2 ^ k)) by done. by rewrite N.mod_pow2_bits_high by done. }
  rewrite <- N.lxor_lor by done. by rewrite N.add_nocarry_lxor.
Qed.

Lemma shiftRight_div v n : v < 2 ^ 128 -> n <= 64 -> shiftRight v n = v / 2 ^ n.
Proof.
  intros Hv Hn. unfold shiftRight. rewrite !N.shiftr_div_pow2.
  rewrite (N.mod_small (v / 2 ^ 64)) by (apply N.div_lt_upper_bound; [done|]; by replace (2 ^ 64 * 2 ^ 64) with (2 ^ 128)).
  rewrite (proj2 (N.ltb_ge 64 n)) by lia. pose proof (N.div_mod v (2 ^ 64) ltac:(done)) as E. pose proof (N.mod_lt v (2 ^ 64) ltac:(done)) as L.
  set (hi := v / 2 ^ 64) in *. set (lo := v mod 2 ^ 64) in *. destruct (N.eqb_spec n 0) as [->|Hz].
  - rewrite N.lor_0_r. change (2 ^ 0) with 1. rewrite !N.div_1_r. lia.
  - set (M := 2 ^ n). set (K := 2 ^ (64 - n)). assert (K * M = 2 ^ 64) as KM by (unfold K, M; rewrite <- N.pow_add_r; f_equal; lia).
    assert (0 < M) by (unfold M; apply N.neq_0_lt_0, N.pow_nonzero; done). assert (0 < K) by (unfold K; apply N.neq_0_lt_0, N.pow_nonzero; done).
    assert ((hi * K) mod 2 ^ 64 = (hi mod M) * K) as ->.
    { rewrite <- KM, (N.mul_comm K M). rewrite N.mul_mod_distr_r by lia. done. }
    unfold K. rewrite lor_add_shift by (apply N.div_lt_upper_bound; [unfold M in *; lia|]; fold K; fold M; lia). fold K.
    pose proof (N.div_mod hi M ltac:(lia)) as Eh. assert (v / M = lo / M + (hi mod M * K + hi / M * 2 ^ 64)) as ->; [|lia].
    rewrite E. replace (2 ^ 64 * hi + lo) with (lo + (hi * K) * M) by (rewrite <- KM; lia). rewrite N.div_add by lia. f_equal.
    rewrite Eh at 1. rewrite <- KM. lia.
Qed.

Lemma phase_ge n : (0 < n)%nat -> N.of_nat n <= 2 ^ phase n.
Proof. intros H. unfold phase. destruct (N.eq_dec (N.of_nat n) 1) as [->|]; [done|]. apply N.log2_up_spec. lia. Qed.

Lemma phase_le_64 n : N.of_nat n <= 2 ^ 64 -> phase n <= 64.
Proof. intros H. unfold phase. change 64 with (N.log2_up (2 ^ 64)). by apply N.log2_up_le_mono. Qed.

Lemma binOf_lt nb v : (0 < nb)%nat -> (binOf nb v < nb)%nat.
Proof. intros H. unfold binOf. pose proof (N.mod_lt (v mod 2 ^ 64) (N.of_nat nb) ltac:(lia)). lia. Qed.

Lemma same_class X mu mv M NB qu qv r : mu < M -> mv < M -> M <= NB -> X + mu = NB * qu + r -> X + mv = NB * qv + r -> mu = mv.
Proof.
  intros H1 H2 H3 E1 E2. destruct (N.lt_trichotomy qu qv) as [L|[->|L]]; [exfalso| |exfalso].
  - assert (NB * (qu + 1) <= NB * qv) by (apply N.mul_le_mono_l; lia). rewrite N.mul_add_distr_l in *. lia.
  - lia.
  - assert (NB * (qv + 1) <= NB * qu) by (apply N.mul_le_mono_l; lia). rewrite N.mul_add_distr_l in *. lia.
Qed.

(** Same bin and same shifted value: the low parts differ by less than [2^phase] and by a multiple of the bin count. *)
Lemma phase_inj nb k u v : u < 2 ^ 128 -> v < 2 ^ 128 -> k <= 64 -> (0 < nb)%nat -> 2 ^ k <= N.of_nat nb ->
  binOf nb u = binOf nb v -> shiftRight u k = shiftRight v k -> u = v.
Proof.
  intros Hu Hv Hk Hnb Hle HB HS. rewrite !shiftRight_div in HS by done.
  assert (2 ^ k <> 0) as NZ by (by apply N.pow_nonzero). assert (N.of_nat nb <> 0) as NZ' by (destruct nb; [inversion Hnb|done]).
  pose proof (N.div_mod u (2 ^ k) NZ) as Eu. pose proof (N.div_mod v (2 ^ k) NZ) as Ev.
  pose proof (N.mod_lt u (2 ^ k) NZ) as Lu. pose proof (N.mod_lt v (2 ^ k) NZ) as Lv. rewrite HS in Eu.
  unfold binOf in HB. apply N2Nat.inj in HB.
  assert (forall w, w mod 2 ^ 64 = 2 ^ k * ((w / 2 ^ k) mod 2 ^ (64 - k)) + w mod 2 ^ k) as D.
  { intros w. replace (2 ^ 64) with (2 ^ k * 2 ^ (64 - k)) by (rewrite <- N.pow_add_r; f_equal; clear -Hk; lia).
    rewrite N.mod_mul_r by (by apply N.pow_nonzero). apply N.add_comm. }
  pose proof (D u) as Du. pose proof (D v) as Dv. rewrite HS in Du.
  pose proof (N.div_mod (u mod 2 ^ 64) (N.of_nat nb) NZ') as Qu. pose proof (N.div_mod (v mod 2 ^ 64) (N.of_nat nb) NZ') as Qv.
  rewrite HB in Qu. rewrite Du in Qu at 1. rewrite Dv in Qv at 1.
  etrans; [exact Eu|]. etrans; [|symmetry; exact Ev]. apply (f_equal (N.add (2 ^ k * (v / 2 ^ k)))). eapply same_class; [exact Lu|exact Lv|exact Hle|exact Qu|exact Qv].
Qed.

(** ** Bins *)

Lemma filter_perm_app {A} (P : A -> Prop) `{!forall x, Decision (P x)} (l k : list A) : filter P (l ++ k) = filter P l ++ filter P k.
Proof. apply filter_app. Qed.

Lemma phase_iff n : (0 < n)%nat -> N.of_nat n < 2 ^ 64 ->
  (forall u v, u < 2 ^ 128 -> v < 2 ^ 128 -> binOf n u = binOf n v -> shiftRight u (phase n) = shiftRight v (phase n) -> u = v) <->
  exists k, N.of_nat n = 2 ^ k.
Proof.
  intros Hn Hle. split.
  - intros H. exists (phase n). pose proof (phase_ge n Hn) as G. destruct (N.eq_dec (N.of_nat n) (2 ^ phase n)) as [E|NE]; [done|exfalso].
    assert (N.of_nat n < 2 ^ 128) as L by (eapply N.lt_trans; [exact Hle|done]).
    assert (0 = N.of_nat n) as E; [|destruct n; [inversion Hn|done]]. apply H; [done|exact L| |].
    + unfold binOf. rewrite (N.mod_small _ _ Hle), N.mod_same by (destruct n; [inversion Hn|done]). rewrite (N.mod_0_l (2 ^ 64)) by done. rewrite N.mod_0_l; [done|destruct n; [inversion Hn|done]].
    + rewrite !shiftRight_div; [|exact L|apply phase_le_64; by apply N.lt_le_incl|done|apply phase_le_64; by apply N.lt_le_incl].
      rewrite N.div_0_l by (by apply N.pow_nonzero). symmetry. apply N.div_small. apply N.le_lteq in G as [G|G]; done.
  - intros [k Hk] u v Hu Hv. apply phase_inj; [done|done|apply phase_le_64; by apply N.lt_le_incl|done|]. unfold phase. rewrite Hk. rewrite N.log2_up_pow2 by apply N.le_0_l. done.
Qed.

Lemma fillBins_gen cap addrs ord : forall bins,
  (forall i, i ∈ ord -> exists b, addrs !! i = Some b /\ (b < length bins)%nat) ->
  (forall b l, bins !! b = Some l -> (length l + length (filter (fun i => addrs !! i = Some b) ord) <= cap)%nat) ->
  exists bins', fillBins cap addrs ord bins = Some bins' /\ length bins' = length bins /\
    forall b l, bins !! b = Some l -> bins' !! b = Some (l ++ filter (fun i => addrs !! i = Some b) ord).
Proof.
  induction ord as [|i ord IH]; intros bins HA HC; cbn [fillBins].
  - exists bins. split; [done|]. split; [done|]. intros b l E. by rewrite filter_nil, app_nil_r.
  - destruct (HA i ltac:(left)) as (b & Eb & Lb). rewrite Eb. destruct (lookup_lt_is_Some_2 bins b Lb) as [l El]. rewrite El.
    pose proof (HC b l El) as Hc. rewrite filter_cons_True in Hc by done. cbn [length] in Hc.
    rewrite (proj2 (Nat.ltb_lt _ _)) by lia. destruct (IH (<[b := l ++ [i]]> bins)) as (bins' & E & L & K).
    + intros j Hj. rewrite insert_length. apply HA. by right.
    + intros b' l' E'. destruct (decide (b' = b)) as [->|NE].
      * rewrite list_lookup_insert in E' by done. injection E' as <-. rewrite app_length. cbn [length]. lia.
      * rewrite list_lookup_insert_ne in E' by done. specialize (HC b' l' E'). rewrite filter_cons_False in HC; [done|]. rewrite Eb. congruence.
    + rewrite insert_length in L. exists bins'. split; [done|]. split; [done|]. intros b' l' E'. destruct (decide (b' = b)) as [->|NE].
      * rewrite El in E'. injection E' as <-. rewrite (K b (l ++ [i])) by by rewrite list_lookup_insert.
        rewrite filter_cons_True by done. by rewrite <- app_assoc.
      * rewrite (K b' l') by by rewrite list_lookup_insert_ne. rewrite filter_cons_False; [done|]. rewrite Eb. congruence.
Qed.

Lemma filter_perm {A} (P : A -> Prop) `{!forall x, Decision (P x)} (l k : list A) : l ≡ₚ k -> filter P l ≡ₚ filter P k.
Proof. by intros ->. Qed.

(** All items fit: bin [b] holds the items with address [b], in the order of insertion. *)
Lemma fillBins_ok cap addrs ord nb : ord ≡ₚ seq 0 (length addrs) -> (forall b, b ∈ addrs -> (b < nb)%nat) ->
  (forall b, (length (filter (fun i => addrs !! i = Some b) (seq 0 (length addrs))) <= cap)%nat) ->
  exists bins, fillBins cap addrs ord (replicate nb []) = Some bins /\ length bins = nb /\
    forall b, (b < nb)%nat -> bins !! b = Some (filter (fun i => addrs !! i = Some b) ord).
Proof.
  intros HO HB HC. destruct (fillBins_gen cap addrs ord (replicate nb [])) as (bins & E & L & K).
  - intros i Hi. rewrite HO in Hi. apply elem_of_seq in Hi. destruct (lookup_lt_is_Some_2 addrs i ltac:(lia)) as [b Eb]. exists b.
    split; [done|]. rewrite replicate_length. apply HB. by eapply elem_of_list_lookup_2.
  - intros b l El. apply lookup_replicate in El as [-> _]. cbn [length]. rewrite (filter_perm (fun i => addrs !! i = Some b) _ _ HO). apply HC.
  - exists bins. rewrite replicate_length in L. split; [done|]. split; [done|]. intros b Hb.
    by rewrite (K b []) by by apply lookup_replicate_2.
Qed.

(** ** Places *)

Lemma placesOf_fst cap nb T t pl : pl ∈ placesOf cap nb T t -> pl.1.1 = t.
Proof. intros H. unfold placesOf in H. apply elem_of_lookup_imap_1 in H as (k & b & -> & _). done. Qed.

Lemma places_bins cap nb T : (0 < T)%nat -> N.of_nat nb * N.of_nat T < 2 ^ 64 -> map (fun pl : nat * nat * nat => pl.1.2) (places cap nb T) = seq 0 nb.
Proof.
  intros HT Hw. unfold places. etrans; [|exact (idxRange_concat nb T HT Hw)]. rewrite <- concat_map_map. f_equal.
  rewrite map_map. apply map_ext. intros t. unfold placesOf. change (map ?f ?l) with (f <$> l) at 1. rewrite fmap_imap. apply list_eq. intros i.
  rewrite list_lookup_imap. by destruct (_ !! i).
Qed.

Lemma places_unique cap nb T t b base t' base' : (0 < T)%nat -> N.of_nat nb * N.of_nat T < 2 ^ 64 ->
  (t, b, base) ∈ places cap nb T -> (t', b, base') ∈ places cap nb T -> t = t' /\ base = base'.
Proof.
  intros HT Hw H1 H2. apply elem_of_list_lookup in H1 as [i Hi]. apply elem_of_list_lookup in H2 as [j Hj].
  pose proof (places_bins cap nb T HT Hw) as E. assert (seq 0 nb !! i = Some b) as Ei by (rewrite <- E, (list_lookup_fmap (fun pl : nat * nat * nat => pl.1.2)), Hi; done).
  assert (seq 0 nb !! j = Some b) as Ej by (rewrite <- E, (list_lookup_fmap (fun pl : nat * nat * nat => pl.1.2)), Hj; done).
  apply lookup_seq in Ei as [-> _]. apply lookup_seq in Ej as [E' _]. cbn in E'. subst j. rewrite Hi in Hj. injection Hj as -> ->. done.
Qed.

Lemma places_exists cap nb T b : (0 < T)%nat -> N.of_nat nb * N.of_nat T < 2 ^ 64 -> (b < nb)%nat ->
  exists t base, (t, b, base) ∈ places cap nb T /\ (t < T)%nat /\ (t, b, base) ∈ placesOf cap nb T t.
Proof.
  intros HT Hw Hb. assert (b ∈ map (fun pl : nat * nat * nat => pl.1.2) (places cap nb T)) as H by (rewrite places_bins by done; apply elem_of_seq; lia).
  apply elem_of_list_fmap in H as ([[t b'] base] & -> & H). exists t, base. split; [done|]. unfold places in H. apply elem_of_concat in H as (l & Hl & H).
  apply elem_of_list_fmap in H as (t' & -> & Ht'). pose proof (placesOf_fst _ _ _ _ _ Hl) as E. cbn in E. subst t'. apply elem_of_seq in Ht'. split; [lia|done].
Qed.

(** ** Receiver's slots *)

Lemma swap_perm {A} (l : list A) i k a c : l !! i = Some a -> l !! k = Some c -> <[k := a]> (<[i := c]> l) ≡ₚ l.
Proof.
  intros Hi Hk. destruct (decide (i = k)) as [->|NE]; [rewrite list_insert_insert; rewrite Hi in Hk; injection Hk as ->; by rewrite list_insert_id|].
  assert (forall (l : list A) i k a c, (i < k)%nat -> l !! i = Some a -> l !! k = Some c -> <[k := a]> (<[i := c]> l) ≡ₚ l) as G.
  { clear. intros l i k a c Hlt Hi Hk. rewrite <- (take_drop_middle l i a Hi) at 2.
    assert (drop (S i) l !! (k - S i)%nat = Some c) as Hk' by (rewrite lookup_drop; by replace (S i + (k - S i))%nat with k by lia).
    rewrite <- (take_drop_middle (drop (S i) l) (k - S i) c Hk').
    assert (<[k := a]> (<[i := c]> l) = take i l ++ c :: take (k - S i) (drop (S i) l) ++ a :: drop (S (k - S i)) (drop (S i) l)) as ->.
    { apply list_eq. intros j. pose proof (lookup_lt_Some _ _ _ Hi). pose proof (lookup_lt_Some _ _ _ Hk).
      rewrite <- (take_drop_middle l i a Hi) at 1. rewrite (list_insert_commute _ k i) by lia.
      rewrite <- (take_drop_middle (drop (S i) l) (k - S i) c Hk') at 1.
      rewrite (insert_app_r_alt _ _ k) by (rewrite take_length; lia). rewrite take_length, Nat.min_l by lia.
      replace (k - i)%nat with (S (k - S i)) by lia. cbn [insert list_insert].
      change (list_insert (k - S i)%nat a ?l) with (<[(k - S i)%nat := a]> l).
      rewrite (insert_app_r_alt (take (k - S i) (drop (S i) l))) by (rewrite take_length; lia).
      rewrite take_length, drop_length, Nat.min_l by lia. rewrite Nat.sub_diag. cbn [insert list_insert].
      rewrite (insert_app_r_alt (take i l)) by (rewrite take_length; lia). rewrite take_length, Nat.min_l, Nat.sub_diag by lia. done. }
    f_equiv. rewrite <- (Permutation_middle (take (k - S i) (drop (S i) l)) _ a), <- (Permutation_middle (take (k - S i) (drop (S i) l)) _ c).
    apply perm_swap. }
  destruct (decide (i < k)%nat); [by apply G|]. rewrite list_insert_commute by done. apply G; [lia|done|done].
Qed.

Lemma recvSlots_ok cap draw bin : forall i perm, length perm = cap -> (i + length bin <= cap)%nat ->
  exists p l, recvSlots cap draw i bin perm = Some (p, l) /\ p ≡ₚ perm /\ take i p = take i perm /\ l.*1 = bin /\
    l.*2 = take (length bin) (drop i p).
Proof.
  induction bin as [|x bin IH]; intros i perm L H; cbn [recvSlots length] in *.
  - exists perm, []. split; [done|]. split; [done|]. split; [done|]. done.
  - rewrite (proj2 (Nat.leb_gt _ _)) by lia. pose proof (N.mod_lt (draw i) (N.of_nat (cap - i)) ltac:(lia)) as Hd.
    set (k := (N.to_nat (draw i mod N.of_nat (cap - i)) + i)%nat). assert (i <= k < cap)%nat as Hk by (unfold k; lia).
    destruct (lookup_lt_is_Some_2 perm i ltac:(lia)) as [a Ea]. destruct (lookup_lt_is_Some_2 perm k ltac:(lia)) as [c Ec]. rewrite Ea, Ec.
    destruct (IH (S i) (<[k := a]> (<[i := c]> perm))) as (p & l & E & Hp & Ht & Hl & Hs); [by rewrite !insert_length|lia|].
    rewrite E. exists p, ((x, c) :: l). split; [done|]. split; [rewrite Hp; by apply swap_perm|].
    assert (take i p = take i perm) as Et.
    { assert (take i (take (S i) p) = take i p) as <- by (rewrite take_take; f_equal; lia).
      rewrite Ht, take_take. replace (i `min` S i)%nat with i by lia. by rewrite !take_insert by lia. }
    split; [done|]. split; [cbn; by rewrite Hl|]. cbn. rewrite Hs.
    assert (p !! i = Some c) as Ep.
    { rewrite <- (lookup_take p (S i)) by lia. rewrite Ht, lookup_take by lia. destruct (decide (k = i)) as [->|NE].
      - rewrite list_lookup_insert by (rewrite insert_length; lia). congruence.
      - rewrite list_lookup_insert_ne by done. apply list_lookup_insert. lia. }
    by rewrite (drop_S _ _ _ Ep).
Qed.

(** What a part of an assignment looks like: every item of the bin once, in distinct OTs of the bin. *)
Definition partOk (cap : nat) (bins : list (list nat)) (pl : nat * nat * nat) (part : list (nat * nat)) : Prop :=
  exists bin, bins !! pl.1.2 = Some bin /\ part.*1 ≡ₚ bin /\ NoDup part.*2 /\ forall s, s ∈ part.*2 -> (pl.2 <= s < pl.2 + cap)%nat.

Lemma map_pair_fst {A B C} (f : A * B -> A * C) (l : list (A * B)) : (forall e, (f e).1 = e.1) -> (map f l).*1 = l.*1.
Proof. intros H. induction l as [|e l IH]; [done|]. cbn. by rewrite H, IH. Qed.

Lemma partOk_shift cap bins t b base bin l : bins !! b = Some bin -> l.*1 ≡ₚ bin -> NoDup l.*2 -> (forall s, s ∈ l.*2 -> (s < cap)%nat) ->
  partOk cap bins (t, b, base) (map (fun e : nat * nat => (e.1, (base + e.2)%nat)) l).
Proof.
  intros E H1 ND HL. exists bin. cbn [fst snd]. split; [done|]. split; [by rewrite map_pair_fst|].
  assert ((map (fun e : nat * nat => (e.1, (base + e.2)%nat)) l).*2 = (fun s => (base + s)%nat) <$> l.*2) as ->.
  { clear. induction l as [|e l IH]; [done|]. cbn. by rewrite IH. }
  split.
  - apply NoDup_fmap_2; [|done]. intros ? ? ?. lia.
  - intros s Hs. apply elem_of_list_fmap in Hs as (s' & -> & Hs'). apply HL in Hs'. lia.
Qed.

Lemma recvAssign_ok cap draw bins pls : forall perm, perm ≡ₚ seq 0 cap ->
  (forall t b base, (t, b, base) ∈ pls -> exists bin, bins !! b = Some bin /\ (length bin <= cap)%nat) ->
  exists parts, recvAssign cap draw bins pls perm = Some (concat parts) /\ Forall2 (partOk cap bins) pls parts.
Proof.
  induction pls as [|[[t b] base] pls IH]; intros perm HP HB; cbn [recvAssign].
  - exists []. done.
  - destruct (HB t b base ltac:(left)) as (bin & Eb & Lb). rewrite Eb.
    assert (length perm = cap) as LP by (rewrite HP; apply seq_length).
    destruct (recvSlots_ok cap (draw b) bin 0 perm LP ltac:(lia)) as (p & l & -> & Hp & _ & Hl & Hs).
    destruct (IH p) as (parts & -> & F); [by rewrite Hp|intros; apply (HB t0 b0 base0); by right|].
    exists (map (fun e : nat * nat => (e.1, (base + e.2)%nat)) l :: parts). split; [done|]. constructor; [|done].
    apply partOk_shift with bin; [done|by rewrite Hl| |].
    + rewrite Hs. apply NoDup_take, NoDup_drop. rewrite Hp, HP. apply NoDup_seq.
    + intros s H. rewrite Hs in H. assert (s ∈ p) as H'. { rewrite drop_0 in H. rewrite <- (take_drop (length bin) p). apply elem_of_app. by left. }
      rewrite Hp, HP in H'. apply elem_of_seq in H'. lia.
Qed.

(** ** Buffer release *)

From Verif Require Import Rr17_Spec.

Lemma queues_app a b : queues (a ++ b) = (queues a + queues b)%nat.
Proof. induction a as [|[] a IH]; cbn; lia. Qed.
Lemma completes_app a b : completes (a ++ b) = (completes a + completes b)%nat.
Proof. induction a as [|[] a IH]; cbn; lia. Qed.

Lemma bufRun_snoc preset chunks tr e : bufRun preset chunks (tr ++ [e]) = andThen (bufRun preset chunks tr) (bufStep preset e).
Proof. unfold bufRun. by rewrite foldl_app. Qed.

Lemma validTrace_snoc tr e : validTrace (tr ++ [e]) -> validTrace tr /\ (completes tr + completes [e] <= queues tr + queues [e])%nat.
Proof.
  intros H. split.
  - intros k. destruct (decide (k <= length tr)%nat).
    + specialize (H k). by rewrite take_app_le in H.
    + specialize (H (length tr)). rewrite take_app in H. by rewrite take_ge by lia.
  - specialize (H (length (tr ++ [e]))). rewrite take_ge in H by lia. by rewrite queues_app, completes_app in H.
Qed.

Lemma validTrace_le tr : validTrace tr -> (completes tr <= queues tr)%nat.
Proof. intros H. specialize (H (length tr)). by rewrite take_ge in H by lia. Qed.

Lemma buf_preset chunks tr : 0 < chunks < 2 ^ 32 -> validTrace tr -> N.of_nat (queues tr) <= chunks ->
  bufRun true chunks tr = Done (mkBufState (chunks - N.of_nat (completes tr)) (if N.of_nat (completes tr) =? chunks then 1 else 0)).
Proof.
  intros Hc. induction tr as [|e tr IH] using rev_ind; intros HV HQ.
  - unfold bufRun, bufStart. cbn [foldl completes]. rewrite N.mod_small by lia. rewrite (proj2 (N.eqb_neq _ _)) by lia. f_equal. f_equal. lia.
  - apply validTrace_snoc in HV as [HV HV']. pose proof (validTrace_le _ HV) as HLe. rewrite queues_app in HQ. rewrite bufRun_snoc, IH by (done || lia). rewrite completes_app.
    cbn [andThen obind]. unfold andThen, obind, bufStep. cbn [bsFreed bsCount].
    destruct e; cbn [queues completes] in *.
    + rewrite (proj2 (N.eqb_neq (N.of_nat (completes tr)) chunks)) by lia. cbn [Nat.eqb negb].
      rewrite (proj2 (N.eqb_neq (N.of_nat (completes tr + 0)) chunks)) by lia. f_equal. f_equal. lia.
    + rewrite (proj2 (N.eqb_neq (N.of_nat (completes tr)) chunks)) by lia. cbn [Nat.eqb negb].
      assert ((chunks - N.of_nat (completes tr) + 2 ^ 32 - 1) mod 2 ^ 32 = chunks - N.of_nat (completes tr + 1)) as ->.
      { replace (chunks - N.of_nat (completes tr) + 2 ^ 32 - 1) with ((chunks - N.of_nat (completes tr + 1)) + 1 * 2 ^ 32) by lia.
        rewrite N.mod_add by done. apply N.mod_small. lia. }
      f_equal. f_equal. destruct (N.eqb_spec (chunks - N.of_nat (completes tr + 1)) 0), (N.eqb_spec (N.of_nat (completes tr + 1)) chunks); try done; lia.
Qed.

(** Counter from zero: fine as long as the number of outstanding chunks does not reach zero before everything is queued. *)
Lemma buf_counting chunks tr : 0 < chunks < 2 ^ 32 -> validTrace tr -> N.of_nat (queues tr) <= chunks ->
  (forall k, (0 < queues (take k tr))%nat -> queues (take k tr) = completes (take k tr) -> N.of_nat (queues (take k tr)) = chunks) ->
  bufRun false chunks tr = Done (mkBufState (N.of_nat (queues tr - completes tr)) (if N.of_nat (completes tr) =? chunks then 1 else 0)).
Proof.
  intros Hc. induction tr as [|e tr IH] using rev_ind; intros HV HQ HZ.
  - unfold bufRun, bufStart. cbn [foldl completes queues]. rewrite (proj2 (N.eqb_neq _ _)) by lia. done.
  - apply validTrace_snoc in HV as [HV HV']. pose proof (validTrace_le _ HV) as HLe. rewrite queues_app in HQ. rewrite bufRun_snoc, IH; [|done|lia|].
    2:{ intros k Hk E. destruct (decide (k <= length tr)%nat).
        - specialize (HZ k). rewrite take_app_le in HZ by done. by apply HZ.
        - specialize (HZ (length tr)). rewrite take_app in HZ. rewrite take_ge in * by lia. by apply HZ. }
    rewrite queues_app, completes_app. unfold andThen, obind, bufStep. cbn [bsFreed bsCount].
    destruct e; cbn [queues completes] in *.
    + rewrite (proj2 (N.eqb_neq (N.of_nat (completes tr)) chunks)) by lia. cbn [Nat.eqb negb].
      rewrite (proj2 (N.eqb_neq (N.of_nat (completes tr + 0)) chunks)) by lia. rewrite N.mod_small by lia. f_equal. f_equal. lia.
    + rewrite (proj2 (N.eqb_neq (N.of_nat (completes tr)) chunks)) by lia. cbn [Nat.eqb negb].
      assert ((N.of_nat (queues tr - completes tr) + 2 ^ 32 - 1) mod 2 ^ 32 = N.of_nat (queues tr - completes tr - 1)) as ->.
      { replace (N.of_nat (queues tr - completes tr) + 2 ^ 32 - 1) with (N.of_nat (queues tr - completes tr - 1) + 1 * 2 ^ 32) by lia.
        rewrite N.mod_add by done. apply N.mod_small. lia. }
      assert (queues tr = S (completes tr) -> N.of_nat (queues tr) = chunks) as HL.
      { intros E. specialize (HZ (length (tr ++ [Complete]))). rewrite take_ge, queues_app, completes_app in HZ by lia. cbn in HZ.
        rewrite Nat.add_0_r in HZ. apply HZ; lia. }
      f_equal. f_equal; [lia|].
      destruct (N.eqb_spec (N.of_nat (queues tr - completes tr - 1)) 0), (N.eqb_spec (N.of_nat (completes tr + 1)) chunks); try done; lia.
Qed.
