(** RR17a: the rows of two sets of the sender with the same common items differ by renamed and shifted encodings. *)
From stdpp Require Import sets.
From Verif Require Import Base Bgi_Proofs Partition_Model Partition_Proofs Dcw_Spec Dcw_Proofs Ecdh_Proofs Rr17_Model Rr17_Proofs Rr17a_Model Rr17a_Spec Rr17a_Proofs
  Order_Spec Order_Proofs OrderRr17_Spec OrderRr17a_Proofs Reveal_Spec Reveal_Proofs RevealRr17_Spec.

Lemma shift_places {I A : Type} `{EqDecision I, EqDecision A} (pl : list I) (src : I -> A) (delta : I -> N) (B : N) : 0 < B -> (forall i, i ∈ pl -> delta i < B) ->
  (forall i j, i ∈ pl -> j ∈ pl -> src i = src j -> i = j) ->
  exists d : A -> N, (forall i, i ∈ pl -> d (src i) = delta i) /\ (forall a, (forall i, i ∈ pl -> src i <> a) -> d a = 0) /\ forall a, d a < B.
Proof.
  intros HB Hd Hi. exists (fun a => match list_find (fun i => src i = a) pl with Some (_, i) => delta i | None => 0 end). split; [|split].
  - intros i Hin. destruct (list_find (fun j => src j = src i) pl) as [[k j]|] eqn:E.
    + apply list_find_Some in E as (Ek & E & _). f_equal. apply Hi; [by eapply elem_of_list_lookup_2|done|done].
    + apply list_find_None in E. rewrite Forall_forall in E. by destruct (E i Hin).
  - intros a H. destruct (list_find (fun j => src j = a) pl) as [[k j]|] eqn:E; [|done]. apply list_find_Some in E as (Ek & E & _). destruct (H j); [by eapply elem_of_list_lookup_2|done].
  - intros a. destruct (list_find (fun j => src j = a) pl) as [[k j]|] eqn:E; [|done]. apply list_find_Some in E as (Ek & E & _). apply Hd. by eapply elem_of_list_lookup_2.
Qed.

Lemma places_disjoint cap nb T t b b' base base' i : (t, b, base) ∈ places cap nb T -> (t, b', base') ∈ places cap nb T ->
  (base <= i < base + cap)%nat -> (base' <= i < base' + cap)%nat -> b = b'.
Proof.
  intros H H' B B'.
  assert (forall t b base, (t, b, base) ∈ places cap nb T -> exists k, placesOf cap nb T t !! k = Some (t, b, base) /\ base = (k * cap)%nat) as G.
  { intros t0 b0 base0 Hp. unfold places in Hp. apply elem_of_concat in Hp as (l & Hl & Hp). apply elem_of_list_fmap in Hp as (t' & -> & _).
    pose proof (placesOf_fst _ _ _ _ _ Hl) as E. cbn in E. subst t'. apply elem_of_list_lookup in Hl as (k & Hk). exists k. split; [done|]. by apply placesOf_base in Hk. }
  destruct (G _ _ _ H) as (k & Hk & ->), (G _ _ _ H') as (k' & Hk' & ->).
  assert (k = k') as <- by nia. rewrite Hk in Hk'. by injection Hk'.
Qed.

Lemma NoDup_pairs {A B} (l : list A) (l' : list B) : NoDup l -> NoDup l' -> NoDup (list_prod l l').
Proof.
  intros D D'. induction D as [|x l Hx D IH]; [constructor|]. cbn. apply NoDup_app. split; [|split; [|done]].
  - apply (NoDup_fmap_2 (pair x)). done.
  - intros [a b] H1 H2. apply elem_of_list_In, in_map_iff in H1 as (b' & [= <- <-] & _). apply elem_of_list_In, in_prod_iff in H2 as [H2 _]. by apply Hx, elem_of_list_In.
Qed.

Lemma mod_lxor_pow a b k : N.lxor a b mod 2 ^ k = N.lxor (a mod 2 ^ k) (b mod 2 ^ k).
Proof. apply N.bits_inj. intros i. rewrite <- !N.land_ones, N.lxor_spec, !N.land_spec, N.lxor_spec. by destruct (N.testbit a i), (N.testbit b i), (N.testbit (N.ones k) i). Qed.

Lemma rr17a_reveals P K R S S' ord ord' pls pls' : sameCommon R S S' -> paramsOk P S -> paramsOk P S' -> distinctInputs P S -> distinctInputs P S' ->
  choosesOwn P K R (S ++ S') ->
  ord ≡ₚ seq 0 (pN P) -> ord' ≡ₚ seq 0 (pN P) -> pls ≡ₚ places (pCap P) (pNb P) (pT P) -> pls' ≡ₚ places (pCap P) (pNb P) (pT P) ->
  exists h hb s, relabels (pN P) h /\ (forall b, (b < pNb P)%nat -> relabels (pCap P) (hb b)) /\ renaming s /\ (forall a, a ∈ K -> s a = a) /\
    forall rd rd', randOk P rd -> randOk P rd' -> rOrdS rd = ord -> rOrdS rd' = ord' -> rPlaces rd = pls -> rPlaces rd' = pls' ->
      (forall k, (k < pN P)%nat -> rMaskPerm rd' !! h k = rMaskPerm rd !! k) -> (forall b, (b < pNb P)%nat -> rShuf rd' b = map (hb b) (rShuf rd b)) ->
      exists d, (forall a, a ∈ K -> d a = 0) /\ (forall a, d a < 2 ^ 128) /\
        forall w, exists rows, sentA (withEncR P w) rd S = Some rows /\ sentA (withEncR P (fun a => N.lxor (w (s a)) (d a))) rd' S' = Some rows.
Proof.
  intros Hc HS HS' HI HI' HK Ho Ho' Hpl Hpl'. pose proof HS as (Hn & Hnb & Hcap & HT & HM & Hw & L & HC). pose proof HS' as (_ & _ & _ & _ & _ & _ & L' & HC').
  pose proof Hc as (DS & DS' & _ & Hcom).
  destruct (mkBins_ok P S ord HS Ho) as (bins & EB & OB). destruct (mkBins_ok P S' ord' HS' Ho') as (bins' & EB' & OB').
  set (js := rowItems bins pls). set (js' := rowItems bins' pls').
  assert (js ≡ₚ seq 0 (pN P)) as Pj. { unfold js, rowItems. rewrite <- L. apply (binsOk_all P S bins); [done|done|]. rewrite (Permutation_map _ Hpl), places_bins by done. done. }
  assert (js' ≡ₚ seq 0 (pN P)) as Pj'. { unfold js', rowItems. rewrite <- L'. apply (binsOk_all P S' bins'); [done|done|]. rewrite (Permutation_map _ Hpl'), places_bins by done. done. }
  assert (itemsAt S js ≡ₚ S) as PI by (by apply (itemsAt_perm S js (pN P))). assert (itemsAt S' js' ≡ₚ S') as PI' by (by apply (itemsAt_perm S' js' (pN P))).
  destruct (match_positions R (itemsAt S js) (itemsAt S' js')) as (h & Rh & Hh).
  { split; [by rewrite PI|]. split; [by rewrite PI'|]. split; [by rewrite PI, PI', L, L'|]. intros x Hx. rewrite PI, PI'. by apply Hcom. }
  rewrite PI, L in Rh.
  assert (forall T bs b bin, paramsOk P T -> NoDup T -> binsOk P T bs -> (b < pNb P)%nat -> bs !! b = Some bin ->
    NoDup (itemsAt T bin) /\ (length (itemsAt T bin) <= pCap P)%nat /\ (forall j, j ∈ bin -> (j < length T)%nat) /\ forall x, x ∈ itemsAt T bin <-> x ∈ T /\ itemBin P x = b) as HB.
  { intros T bs b bin HT' DT OT Hb Eb. assert (forall j, j ∈ bin <-> exists x, T !! j = Some x /\ itemBin P x = b) as HI0.
    { intros j. destruct (binsOk_elem P T bs b j OT Hb) as (bin2 & E2 & _ & HI0). rewrite Eb in E2. injection E2 as <-. done. }
    assert (NoDup bin) as DB. { destruct (binsOk_elem P T bs b 0 OT Hb) as (bin2 & E2 & D2 & _). rewrite Eb in E2. by injection E2 as <-. }
    assert (forall j, j ∈ bin -> (j < length T)%nat) as Hlt. { intros j (x & Hx & _)%HI0. by eapply lookup_lt_Some. }
    split; [by apply itemsAt_NoDup|]. split.
    { unfold itemsAt. rewrite map_length. eapply (binsOk_length P T bs b bin); [done| |done]. apply HT'. }
    split; [done|]. intros x. rewrite itemsAt_elem by done. split.
    - intros (j & (y & Hy & E)%HI0 & Hx). rewrite Hx in Hy. injection Hy as <-. split; [by eapply elem_of_list_lookup_2|done].
    - intros [(j & Hj)%elem_of_list_lookup E]. exists j. split; [|done]. apply HI0. eauto. }
  destruct (finite_choice (fun b hb => relabels (pCap P) hb /\ forall bin bin' q x, bins !! b = Some bin -> bins' !! b = Some bin' -> x ∈ R -> itemsAt S bin !! q = Some x -> itemsAt S' bin' !! hb q = Some x)
    id (pNb P)) as (hb & Hhb).
  { intros b Hb. destruct (binsOk_elem P S bins b 0 OB Hb) as (bin & Eb & _). destruct (binsOk_elem P S' bins' b 0 OB' Hb) as (bin' & Eb' & _).
    destruct (HB S bins b bin HS DS OB Hb Eb) as (A1 & A2 & _ & A3). destruct (HB S' bins' b bin' HS' DS' OB' Hb Eb') as (B1 & B2 & _ & B3).
    destruct (match_padded R (pCap P) (itemsAt S bin) (itemsAt S' bin') A1 B1 A2 B2) as (hb & Rb & Hb2).
    { intros x Hx. rewrite A3, B3. by rewrite (Hcom x Hx). }
    exists hb. split; [done|]. intros bin2 bin2' q x E2 E2' Hx Hq. rewrite Eb in E2. rewrite Eb' in E2'. injection E2 as <-. injection E2' as <-. by apply Hb2. }
  (* the encodings behind the rows *)
  set (place := fun b => match list_find (fun pl : nat * nat * nat => pl.1.2 = b) (places (pCap P) (pNb P) (pT P)) with Some (_, (t, _, base)) => (t, base) | None => (O, O) end).
  assert (forall b, (b < pNb P)%nat -> ((place b).1, b, (place b).2) ∈ places (pCap P) (pNb P) (pT P)) as Hplace.
  { intros b Hb. unfold place. destruct (list_find _ _) as [[k [[t b'] base]]|] eqn:E.
    - apply list_find_Some in E as (Ek & E & _). cbn in E. subst b'. by eapply elem_of_list_lookup_2.
    - apply list_find_None in E. rewrite Forall_forall in E. destruct (places_exists (pCap P) (pNb P) (pT P) b HT Hw Hb) as (t & base & Hp & _). by destruct (E _ Hp). }
  set (point := fun (y : N) (l : nat) => ((place (itemBin P y)).1, ((place (itemBin P y)).2 + l)%nat, nco P y)).
  set (srcA := fun kl : nat * nat => point (default 0 (itemsAt S js !! kl.1)) kl.2).
  set (srcB := fun kl : nat * nat => point (default 0 (itemsAt S' js' !! h kl.1)) kl.2).
  set (pl := list_prod (seq 0 (pN P)) (seq 0 (pCap P))).
  assert (forall kl, kl ∈ pl <-> (kl.1 < pN P)%nat /\ (kl.2 < pCap P)%nat) as Hpl2.
  { intros [k l]. unfold pl. rewrite elem_of_list_In, in_prod_iff, <- !elem_of_list_In, !elem_of_seq. cbn. lia. }
  assert (NoDup pl) as Dpl.
  { apply NoDup_pairs; apply NoDup_seq. }
  assert (forall y y' l l', (l < pCap P)%nat -> (l' < pCap P)%nat -> point y l = point y' l' -> itemBin P y = itemBin P y' /\ nco P y = nco P y' /\ l = l') as Hpoint.
  { intros y y' l l' Hl Hl' E. unfold point in E. injection E as E1 E2 E3. pose proof (Hplace _ (itemBin_lt P y Hnb)) as G1. pose proof (Hplace _ (itemBin_lt P y' Hnb)) as G2.
    rewrite <- E1 in G2. assert (itemBin P y = itemBin P y') as Eb by (apply (places_disjoint _ _ _ _ _ _ _ _ ((place (itemBin P y)).2 + l)%nat G1 G2); lia).
    split; [done|]. split; [done|]. rewrite Eb in E2. lia. }
  assert (length (itemsAt S js) = pN P) as Lis by (by rewrite PI, L). assert (length (itemsAt S' js') = pN P) as Lis' by (by rewrite PI', L').
  assert (forall k, (k < pN P)%nat -> (h k < pN P)%nat) as Hhlt. { intros k Hk. destruct Rh as (h' & Rh). by apply Rh. }
  assert (forall k, (k < pN P)%nat -> exists y, itemsAt S js !! k = Some y /\ y ∈ S) as GetA.
  { intros k Hk. destruct (lookup_lt_is_Some_2 (itemsAt S js) k ltac:(lia)) as [y Hy]. exists y. split; [done|]. rewrite <- PI. by eapply elem_of_list_lookup_2. }
  assert (forall k, (k < pN P)%nat -> exists y, itemsAt S' js' !! h k = Some y /\ y ∈ S') as GetB.
  { intros k Hk. specialize (Hhlt k Hk). destruct (lookup_lt_is_Some_2 (itemsAt S' js') (h k) ltac:(lia)) as [y Hy]. exists y. split; [done|]. rewrite <- PI'. by eapply elem_of_list_lookup_2. }
  assert (NoDup (itemsAt S js)) as Dis by (by rewrite PI). assert (NoDup (itemsAt S' js')) as Dis' by (by rewrite PI').
  assert (forall i j, i ∈ pl -> j ∈ pl -> srcA i = srcA j -> i = j) as InjA.
  { intros [k l] [k' l'] [Hk Hl]%Hpl2 [Hk' Hl']%Hpl2 E. cbn [fst snd] in *. unfold srcA in E. cbn [fst snd] in E. destruct (GetA k Hk) as (y & Ey & Sy), (GetA k' Hk') as (y' & Ey' & Sy').
    rewrite Ey, Ey' in E. cbn [default] in E. unfold id in E. apply Hpoint in E as (E1 & E2 & ->); [|done|done]. assert (y = y') as <- by (by apply HI). f_equal. by apply (NoDup_lookup (itemsAt S js) k k' y). }
  assert (forall i j, i ∈ pl -> j ∈ pl -> srcB i = srcB j -> i = j) as InjB.
  { intros [k l] [k' l'] [Hk Hl]%Hpl2 [Hk' Hl']%Hpl2 E. cbn [fst snd] in *. unfold srcB in E. cbn [fst snd] in E. destruct (GetB k Hk) as (y & Ey & Sy), (GetB k' Hk') as (y' & Ey' & Sy').
    rewrite Ey, Ey' in E. cbn [default] in E. unfold id in E. apply Hpoint in E as (E1 & E2 & ->); [|done|done]. assert (y = y') as <- by (by apply HI'). f_equal.
    assert (h k = h k') as Eh by (by apply (NoDup_lookup (itemsAt S' js') (h k) (h k') y)). destruct Rh as (h' & Rh). destruct (Rh k Hk) as (_ & _ & I1 & _), (Rh k' Hk') as (_ & _ & I2 & _). congruence. }
  assert (forall y l, (l < pCap P)%nat -> y ∈ S ++ S' -> point y l ∈ K -> y ∈ R) as HKR.
  { intros y l Hl Hy Hin. apply (HK _ _ y Hin Hy). exists (place (itemBin P y)).2. split; [apply Hplace, itemBin_lt; done|lia]. }
  destruct (rename_places pl srcA srcB (fun a => a ∈ K) Dpl InjA InjB) as (s & Rs & Hs & Hfix).
  { intros [k l] [Hk Hl]%Hpl2 HF. cbn [fst snd] in *. unfold srcA, srcB in *. cbn [fst snd] in *. destruct (GetA k Hk) as (y & Ey & Sy), (GetB k Hk) as (y' & Ey' & Sy'). rewrite Ey, Ey' in *. cbn [default] in *. unfold id in *.
    destruct (Hh k y Ey) as (y2 & Hy2 & Hcase). rewrite Ey' in Hy2. injection Hy2 as <-. destruct Hcase as [<-|[N1 N2]]; [done|].
    destruct HF as [HF|HF]; apply HKR in HF; [done|done|set_solver|done|done|set_solver]. }
  exists h, hb, s. split; [done|]. split; [intros b Hb; by apply Hhb|]. split; [done|]. split; [done|].
  intros rd rd' HD HD' E1 E2 E3 E4 Hmp Hsh.
  pose proof HD as (D1 & D2 & _). pose proof HD' as (D1' & D2' & _).
  set (encAt := fun (y : N) (sl : nat) => pEncS P (place (itemBin P y)).1 ((place (itemBin P y)).2 + sl)%nat (nco P y)).
  assert (forall T bs ji yi rdi, paramsOk P T -> binsOk P T bs -> T !! ji = Some yi -> (forall b, rShuf rdi b ≡ₚ seq 0 (pCap P)) ->
    exists bin q sl, bs !! itemBin P yi = Some bin /\ bin !! q = Some ji /\ rShuf rdi (itemBin P yi) !! sl = Some q) as Hex.
  { intros T bs ji yi rdi HT' OT Hji Dsh.
    destruct (binsOk_elem P T bs (itemBin P yi) ji OT (itemBin_lt P yi Hnb)) as (bin & Ebin & _ & HI0). assert (ji ∈ bin) as (q & Hq)%elem_of_list_lookup by (apply HI0; eauto).
    assert (q ∈ rShuf rdi (itemBin P yi)) as (sl & Hsl)%elem_of_list_lookup.
    { rewrite Dsh. apply elem_of_seq. apply lookup_lt_Some in Hq. assert (length bin <= pCap P)%nat; [|lia]. eapply (binsOk_length P T bs); [done| |done]. apply HT'. }
    by exists bin, q, sl. }
  destruct (finite_choice (fun k (sl : nat * nat) => forall y y', itemsAt S js !! k = Some y -> itemsAt S' js' !! h k = Some y' ->
     (y' = y -> y ∈ R -> sl.2 = sl.1) /\
     (forall w rows p, sentA (withEncR P w) rd S = Some rows -> rMaskPerm rd !! k = Some p ->
        rows !! p = Some (map (fun l => N.lxor (w (point y l)) (encAt y sl.1) mod 2 ^ (8 * pMask P)) (seq 0 (pCap P)))) /\
     (forall w rows p, sentA (withEncR P w) rd' S' = Some rows -> rMaskPerm rd' !! h k = Some p ->
        rows !! p = Some (map (fun l => N.lxor (w (point y' l)) (encAt y' sl.2) mod 2 ^ (8 * pMask P)) (seq 0 (pCap P))))) (O, O) (pN P)) as (sl & Hsl).
  { intros k Hk. destruct (GetA k Hk) as (y & Ey & Sy), (GetB k Hk) as (y' & Ey' & Sy').
    pose proof Ey as Ey0. pose proof Ey' as Ey0'. unfold itemsAt in Ey0, Ey0'. apply list_lookup_fmap_Some in Ey0 as (j & Hj & Ej), Ey0' as (j' & Hj' & Ej').
    assert (forall (T : list N) n l j, length T = n -> l ≡ₚ seq 0 n -> j ∈ l -> exists y, T !! j = Some y) as Hitem.
    { intros T n l j0 <- Pl Hin. apply lookup_lt_is_Some_2. rewrite Pl in Hin. apply elem_of_seq in Hin. lia. }
    destruct (Hitem S (pN P) js j L Pj) as [z Hy]; [by eapply elem_of_list_lookup_2|]. destruct (Hitem S' (pN P) js' j' L' Pj') as [z' Hy']; [by eapply elem_of_list_lookup_2|].
    rewrite Hy in Ej. rewrite Hy' in Ej'. cbn in Ej, Ej'. unfold id in Ej, Ej'. subst z z'.
    destruct (Hex S bins j y rd HS OB Hy D1) as (bin & q & sa & P2 & P3 & P4). destruct (Hex S' bins' j' y' rd' HS' OB' Hy' D1') as (bin' & q' & sb & P2' & P3' & P4').
    exists (sa, sb). intros z z' Ez Ez'. rewrite Ey in Ez. rewrite Ey' in Ez'. injection Ez as <-. injection Ez' as <-. cbn [fst snd]. split; [|split].
    - intros -> Ry. destruct (Hhb (itemBin P y) (itemBin_lt P y Hnb)) as [_ Hb2]. specialize (Hb2 bin bin' q y P2 P2' Ry ltac:(by rewrite (itemsAt_lookup S bin q j P3), Hy)).
      unfold itemsAt in Hb2. apply list_lookup_fmap_Some in Hb2 as (j2 & Hj2 & Ey2).
      destruct (HB S' bins' (itemBin P y) bin' HS' DS' OB' (itemBin_lt P y Hnb) P2') as (_ & _ & Blt & _).
      destruct (lookup_lt_is_Some_2 S' j2) as [z Hz]; [apply Blt; by eapply elem_of_list_lookup_2|]. rewrite Hz in Ey2. cbn in Ey2. unfold id in Ey2. subst z.
      assert (j2 = j') as -> by (by eapply (NoDup_lookup S')).
      assert (q' = hb (itemBin P y) q) as ->.
      { destruct (binsOk_elem P S' bins' (itemBin P y) 0 OB' (itemBin_lt P y Hnb)) as (b2 & Eb2 & Db2 & _). rewrite P2' in Eb2. injection Eb2 as <-. by eapply (NoDup_lookup bin'). }
      rewrite (Hsh _ (itemBin_lt P y Hnb)) in P4'. apply list_lookup_fmap_Some in P4' as (q2 & Hq2 & Eq2).
      assert (relabels (pCap P) (hb (itemBin P y))) as (hinv & Hinv) by (apply Hhb, itemBin_lt; done).
      assert (forall q s, rShuf rd (itemBin P y) !! s = Some q -> (q < pCap P)%nat) as Hqlt. { intros q0 s0 H0%elem_of_list_lookup_2. rewrite D1 in H0. apply elem_of_seq in H0. lia. }
      assert (q2 = q) as ->. { destruct (Hinv q (Hqlt _ _ P4)) as (_ & _ & I1 & _). destruct (Hinv q2 (Hqlt _ _ Hq2)) as (_ & _ & I2 & _). congruence. }
      eapply (NoDup_lookup (rShuf rd (itemBin P y))); [|done|done]. rewrite D1. apply NoDup_seq.
    - intros w rows p Er Hp. destruct (sent_rows (withEncR P w) rd S HS HD) as (rows2 & bs & ER & _ & EB1 & _ & _ & A). rewrite Er in ER. injection ER as <-.
      change (mkBins P S (rOrdS rd) = Some bs) in EB1. rewrite E1, EB in EB1. injection EB1 as <-. rewrite E3 in A. fold js in A.
      exact (A k j p y _ _ bin q sa Hj Hp Hy (Hplace _ (itemBin_lt P y Hnb)) P2 P3 P4).
    - intros w rows p Er Hp. destruct (sent_rows (withEncR P w) rd' S' HS' HD') as (rows2 & bs & ER & _ & EB1 & _ & _ & A). rewrite Er in ER. injection ER as <-.
      change (mkBins P S' (rOrdS rd') = Some bs) in EB1. rewrite E2, EB' in EB1. injection EB1 as <-. rewrite E4 in A. fold js' in A.
      exact (A (h k) j' p y' _ _ bin' q' sb Hj' Hp Hy' (Hplace _ (itemBin_lt P y' Hnb)) P2' P3' P4'). }
  set (delta := fun kl : nat * nat => N.lxor (encAt (default 0 (itemsAt S js !! kl.1)) (sl kl.1).1) (encAt (default 0 (itemsAt S' js' !! h kl.1)) (sl kl.1).2) mod 2 ^ (8 * pMask P)).
  destruct (shift_places pl srcB delta (2 ^ 128)) as (d & Hd1 & Hd2 & Hd3); [done| |exact InjB|].
  { intros kl _. unfold delta. apply N.lt_le_trans with (2 ^ (8 * pMask P)); [apply N.mod_lt, N.pow_nonzero; done|]. apply N.pow_le_mono_r; [done|lia]. }
  exists d. split; [|split; [done|]].
  { intros a Ha. destruct (decide (Exists (fun kl => srcB kl = a) pl)) as [Hin|Hnin].
    - apply Exists_exists in Hin as ([k l] & Hkl & Ea). rewrite <- Ea, (Hd1 _ Hkl). apply Hpl2 in Hkl as [Hk Hl]. cbn [fst snd] in *. unfold delta. cbn [fst].
      destruct (GetA k Hk) as (y & Ey & Sy), (GetB k Hk) as (y' & Ey' & Sy'). destruct (Hsl k Hk y y' Ey Ey') as (Hsame & _). subst a. unfold srcB in Ha. cbn [fst snd] in Ha. rewrite Ey, Ey' in *. cbn [default] in *. unfold id in *.
      apply HKR in Ha; [|done|set_solver]. destruct (Hh k y Ey) as (y2 & Hy2 & Hcase). rewrite Ey' in Hy2. injection Hy2 as <-. destruct Hcase as [<-|[N1 N2]]; [|done].
      rewrite (Hsame eq_refl Ha), N.lxor_nilpotent. apply N.mod_0_l, N.pow_nonzero. done.
    - apply Hd2. intros i Hi Ei. apply Hnin, Exists_exists. eauto. }
  intros w. set (w' := fun a => N.lxor (w (s a)) (d a)).
  destruct (sent_rows (withEncR P w) rd S HS HD) as (rows & bs & ER & LR & _). destruct (sent_rows (withEncR P w') rd' S' HS' HD') as (rows' & bs' & ER' & LR' & _).
  change (pN (withEncR P w)) with (pN P) in LR. change (pN (withEncR P w')) with (pN P) in LR'.
  exists rows. split; [done|]. rewrite ER'. f_equal. apply (list_eq_same_length _ _ (pN P)); [done|done|]. intros p r r' Hp Hr Hr'.
  assert (p ∈ rMaskPerm rd) as Hpin by (rewrite D2; apply elem_of_seq; lia).
  apply elem_of_list_lookup in Hpin as (k & Hk). assert (k < pN P)%nat as Hkn. { apply lookup_lt_Some in Hk. by rewrite D2, seq_length in Hk. }
  destruct (GetA k Hkn) as (y & Ey & Sy), (GetB k Hkn) as (y' & Ey' & Sy'). destruct (Hsl k Hkn y y' Ey Ey') as (_ & HA & HB').
  rewrite (HA w rows p ER Hk) in Hr'. rewrite (HB' w' rows' p ER' ltac:(by rewrite Hmp)) in Hr. injection Hr as <-. injection Hr' as <-.
  apply map_ext_in. intros l Hl%elem_of_list_In%elem_of_seq. assert ((k, l) ∈ pl) as Hkl by (apply Hpl2; cbn; lia).
  pose proof (Hs _ Hkl) as Hs1. pose proof (Hd1 _ Hkl) as Hd4. unfold srcA, srcB, delta in Hs1, Hd4. cbn [fst snd] in Hs1, Hd4. rewrite Ey, Ey' in Hs1, Hd4. cbn [default] in Hs1, Hd4. unfold id in Hs1, Hd4.
  unfold w'. rewrite Hs1, Hd4. rewrite !mod_lxor_pow, !N.mod_mod by (by apply N.pow_nonzero). by rewrite N.lxor_assoc, (N.lxor_assoc (encAt y _ mod _)), N.lxor_nilpotent, N.lxor_0_r.
Qed.

(** ** The receiver *)

Lemma honest_choices P rd R l K : paramsOk P R -> randOk P rd -> distinctInputs P (R ++ l) -> choices P rd R = Some K -> choosesOwn P K R l.
Proof.
  intros HR HD HI EK. pose proof HR as (Hn & Hnb & Hcap & HT & HM & Hw & HL & HC). destruct HD as (D1 & D2 & D3 & D4 & D5 & D6).
  destruct (mkBins_ok P R _ HR D3) as (bins & EB & OB). unfold choices in EK. rewrite EB in EK.
  assert (forall t b base, (t < pT P)%nat -> (t, b, base) ∈ placesOf (pCap P) (pNb P) (pT P) t -> (t, b, base) ∈ places (pCap P) (pNb P) (pT P) /\ (b < pNb P)%nat /\ exists bin, bins !! b = Some bin /\ (length bin <= pCap P)%nat) as BIN.
  { intros t b base Ht Hpl. assert ((t, b, base) ∈ places (pCap P) (pNb P) (pT P)) as Hpl2.
    { unfold places. apply elem_of_concat. eexists. split; [exact Hpl|]. apply elem_of_list_fmap. exists t. split; [done|]. apply elem_of_seq. lia. }
    assert (b < pNb P)%nat as Hb.
    { assert (b ∈ seq 0 (pNb P)) as Hb; [|apply elem_of_seq in Hb; lia]. rewrite <- (places_bins (pCap P) (pNb P) (pT P) HT Hw).
      apply elem_of_list_fmap. by exists (t, b, base). }
    split; [done|]. split; [done|]. destruct (binsOk_elem P R bins b 0 OB Hb) as (bin & E & _). exists bin. split; [done|]. by eapply binsOk_length. }
  destruct (mapM _ _) as [asg|] eqn:EA; [|done]. injection EK as <-. intros t i x Hin Hx (base & Hpl & Hi).
  apply elem_of_concat in Hin as (part & Hin & Hp). apply elem_of_lookup_imap_1 in Hp as (t0 & a & -> & Ha).
  apply elem_of_list_fmap in Hin as ([j s] & E & Hin). injection E as -> -> E. cbn [fst snd] in E.
  apply mapM_Some in EA. pose proof (Forall2_lookup_r _ _ _ _ _ EA Ha) as (t1 & Ht1 & Ea). apply lookup_seq in Ht1 as [-> Ht1]. cbn [Nat.add] in Ea.
  destruct (recvAssign_ok (pCap P) (rDraw rd) bins (placesOf (pCap P) (pNb P) (pT P) t0) (seq 0 (pCap P))) as (parts & Ep & F); [done| |].
  { intros t' b base' H. pose proof (placesOf_fst _ _ _ _ _ H) as E0. cbn in E0. subst t'. by apply BIN in H as (_ & _ & H). }
  rewrite Ea in Ep. injection Ep as ->. apply elem_of_concat in Hin as (part & Hjs & Hpart). apply elem_of_list_lookup in Hpart as (k & Hk).
  destruct (Forall2_lookup_r _ _ _ _ _ F Hk) as ([[t' b] base'] & Hpl' & Hok). pose proof (elem_of_list_lookup_2 _ _ _ Hpl') as Hin'. pose proof (placesOf_fst _ _ _ _ _ Hin') as E0. cbn in E0. subst t'.
  destruct (BIN _ _ _ Ht1 Hin') as (Hplace & Hb & bin & Ebin & Lbin).
  destruct Hok as (bin2 & Ebin2 & Hp2 & Hp3 & Hp4). cbn [fst snd] in *. rewrite Ebin in Ebin2. injection Ebin2 as <-.
  assert (j ∈ bin) as Hj by (rewrite <- Hp2; apply elem_of_list_fmap; by exists (j, s)). assert (base' <= s < base' + pCap P)%nat as Hs by (apply Hp4, elem_of_list_fmap; by exists (j, s)).
  destruct (binsOk_elem P R bins b j OB Hb) as (bin3 & E3 & _ & HI0). rewrite Ebin in E3. injection E3 as <-. apply HI0 in Hj as (z & Hz & Ez).
  rewrite list_lookup_fmap, Hz in E. cbn in E. unfold id in E. assert (itemBin P x = itemBin P z) as Ebx.
  { rewrite Ez. by apply (places_disjoint (pCap P) (pNb P) (pT P) t0 _ _ base base' s). }
  rewrite (HI x z); [by eapply elem_of_list_lookup_2| | |done|done]; apply elem_of_app; [by right|left; by eapply elem_of_list_lookup_2].
Qed.

Lemma setMasks_ext enc enc' inp a m : (forall e, e ∈ a -> enc e.2 (default 0 (inp !! e.1)) = enc' e.2 (default 0 (inp !! e.1))) -> setMasks enc inp a m = setMasks enc' inp a m.
Proof.
  unfold setMasks. revert m. induction a as [|e a IH]; intros m H; [done|]. cbn. rewrite (H e) by left. apply IH. intros e' He'. apply H. by right.
Qed.
Lemma threadMasks_ext enc enc' inp asg m :
  (forall t a e, asg !! t = Some a -> e ∈ a -> enc t e.2 (default 0 (inp !! e.1)) = enc' t e.2 (default 0 (inp !! e.1))) -> threadMasks enc inp asg m = threadMasks enc' inp asg m.
Proof.
  unfold threadMasks. assert (forall k m, (forall t a e, asg !! t = Some a -> e ∈ a -> enc (k + t)%nat e.2 (default 0 (inp !! e.1)) = enc' (k + t)%nat e.2 (default 0 (inp !! e.1))) ->
    foldl (fun m e => setMasks (enc e.1) inp e.2 m) m (zip (seq k (length asg)) asg) = foldl (fun m e => setMasks (enc' e.1) inp e.2 m) m (zip (seq k (length asg)) asg)) as G; [|apply (G O)].
  induction asg as [|a asg IH]; intros k m0 H; [done|]. cbn [length seq]. cbn [zip zip_with foldl fst snd]. rewrite (setMasks_ext (enc k) (enc' k)).
  - apply IH. intros t a' e Ha He. specialize (H (Datatypes.S t) a' e Ha He). by rewrite Nat.add_succ_r in H.
  - intros e He. specialize (H O a e eq_refl He). by rewrite Nat.add_0_r in H.
Qed.

(** What the receiver reports depends on its choices and on the rows. *)
Lemma rr17a_output P rd rd' R S S' old K w w' rows : length S' = length S -> rDraw rd' = rDraw rd -> rOrdR rd' = rOrdR rd -> rOut rd' = rOut rd ->
  choices P rd R = Some K -> (forall a, a ∈ K -> w' a = w a) -> sentA (withEncR P w) rd S = Some rows -> sentA (withEncR P w') rd' S' = Some rows ->
  (exists res, rr17aRun (withEncR P w) rd R S old = Done res) ->
  exists res res', rr17aRun (withEncR P w) rd R S old = Done res /\ rr17aRun (withEncR P w') rd' R S' old = Done res' /\ resOut res' = resOut res /\ resR res' = resR res.
Proof.
  intros HL E1 E2 E3 EK HK HA HA' (res & Hres). exists res. rewrite Hres. unfold rr17aRun in *. cbn [withEncR pHash pAes pN pNb pCap pMask pT pEncR pEncS] in *.
  rewrite HL. destruct (_ || _); [done|]. destruct (16 <? pMask P); [done|]. destruct (_ =? 0)%nat; [done|].
  unfold choices in EK. unfold sentA in HA, HA'. cbn [withEncR pHash pAes pN pNb pCap pMask pT pEncR pEncS] in HA, HA'.
  change (mkBins (withEncR P w)) with (mkBins P) in *. change (mkBins (withEncR P w')) with (mkBins P) in *. rewrite E1, E2, E3.
  destruct (mkBins P R (rOrdR rd)) as [binsR|]; [|done]. destruct (mkBins P S (rOrdS rd)) as [binsS|]; [|done]. destruct (mkBins P S' (rOrdS rd')) as [binsS'|]; [|done].
  destruct (mapM (fun t => recvAssign _ _ _ _ _) _) as [asR|]; [|done]. destruct (mapM (fun t => sendAssign (rShuf rd) _ _) _) as [asS|]; [|done]. destruct (mapM (fun t => sendAssign (rShuf rd') _ _) _) as [asS'|]; [|done].
  change (nco (withEncR P w)) with (nco P) in *. change (nco (withEncR P w')) with (nco P) in *. cbv zeta in Hres, HA, HA' |- *.
  rewrite HA in Hres. rewrite HA'. injection Hres as <-. eexists. split; [done|]. split; [done|]. cbn [resOut resR]. split; [|done]. f_equal. f_equal.
  rewrite (threadMasks_ext (fun t i v => w' (t, i, v)) (fun t i v => w (t, i, v))); [done|].
  intros t a e Ha He. apply HK. injection EK as <-. apply elem_of_concat. eexists. split; [|apply elem_of_lookup_imap; eauto]. apply elem_of_list_fmap. by exists e.
Qed.
