(** Key generation and evaluation at one position. *)
From Verif Require Import Base Bgi_Model Bgi_Spec.

Lemma lookup_map_seq {A} (f : nat -> A) n j : (j < n)%nat -> map f (seq 0 n) !! j = Some (f j).
Proof. intros H. rewrite (list_lookup_fmap f (seq 0 n)), lookup_seq_lt by done. done. Qed.

(** ** Bits *)

Lemma testbit_notThree b i : N.testbit (notThree b) i = (2 <=? i) && (i <? 128) && N.testbit b i.
Proof.
  unfold notThree. rewrite N.land_spec. change (2 ^ 128 - 4) with (N.shiftl (N.ones 126) 2).
  destruct (N.leb_spec 2 i).
  - rewrite N.shiftl_spec_high' by done.
    destruct (N.ltb_spec i 128).
    + rewrite N.ones_spec_low by lia. cbn. by rewrite andb_true_r.
    + rewrite N.ones_spec_high by lia. cbn. by rewrite andb_false_r.
  - rewrite N.shiftl_spec_low by done. cbn. by rewrite andb_false_r.
Qed.

Lemma lsb_lxor a b : lsb (N.lxor a b) = xorb (lsb a) (lsb b).
Proof. apply N.lxor_spec. Qed.
Lemma lsb_notThree b : lsb (notThree b) = false.
Proof. unfold lsb. by rewrite testbit_notThree. Qed.
Lemma notThree_lxor a b : notThree (N.lxor a b) = N.lxor (notThree a) (notThree b).
Proof.
  apply N.bits_inj. intros i. rewrite N.lxor_spec, !testbit_notThree, N.lxor_spec.
  destruct (2 <=? i), (i <? 128), (N.testbit a i), (N.testbit b i); done.
Qed.
Lemma notThree_idem a : notThree (notThree a) = notThree a.
Proof. apply N.bits_inj. intros i. rewrite !testbit_notThree. destruct (2 <=? i), (i <? 128), (N.testbit a i); done. Qed.
Lemma notThree_bit t : notThree (bit2N t) = 0.
Proof. by destruct t. Qed.
Lemma notThree_bit1 t : notThree (N.shiftl (bit2N t) 1) = 0.
Proof. by destruct t. Qed.
Lemma land_one b : N.land 1 b = bit2N (lsb b).
Proof.
  rewrite N.land_comm. change 1 with (N.ones 1). rewrite N.land_ones. unfold lsb, bit2N.
  change (2 ^ 1) with 2. rewrite <- N.bit0_mod. destruct (N.testbit b 0); done.
Qed.
Lemma land_one' b : N.land b 1 = bit2N (lsb b).
Proof. by rewrite N.land_comm, land_one. Qed.
Lemma bit2N_lxor a b : N.lxor (bit2N a) (bit2N b) = bit2N (xorb a b).
Proof. by destruct a, b. Qed.
Lemma lsb_bit t : lsb (bit2N t) = t.
Proof. by destruct t. Qed.
Lemma lsb_bit1 t : lsb (N.shiftl (bit2N t) 1) = false.
Proof. by destruct t. Qed.
Lemma lsb_mask t b : lsb (maskIf t b) = t && lsb b.
Proof. by destruct t. Qed.
Lemma notThree_mask t b : notThree (maskIf t b) = maskIf t (notThree b).
Proof. by destruct t. Qed.

(** ** Correction words *)

(** The two servers' states agree (off the path), or differ in the control bit (on it). *)
Definition Off (s0 s1 : N) : Prop := notThree s0 = notThree s1 /\ lsb s0 = lsb s1.
Definition On (s0 s1 : N) : Prop := lsb s0 = negb (lsb s1).

Lemma traverseOne_off aes s0 s1 cw c : Off s0 s1 -> traverseOne aes s0 cw c = traverseOne aes s1 cw c.
Proof. intros [E1 E2]. unfold traverseOne. by rewrite E1, E2. Qed.

Definition stepXor (aes : bool -> N -> N) (s0 s1 : N) (c : bool) : N :=
  N.lxor (prg aes c (notThree s0)) (prg aes c (notThree s1)).
Definition stepBit (aes : bool -> N -> N) (keep : bool) (s0 s1 : N) (c : bool) : bool :=
  if c then xorb (lsb (stepXor aes s0 s1 true)) keep else xorb (xorb (lsb (stepXor aes s0 s1 false)) keep) true.

Local Arguments stepBit : simpl never.
Section step.
Context (aes : bool -> N -> N) (keep : bool) (s0 s1 : N) (Hon : On s0 s1).
Notation x := (stepXor aes s0 s1).
Notation tb := (stepBit aes keep s0 s1).

Lemma step_eq : keyGenStep aes keep s0 s1 =
  (N.lxor (N.lxor (notThree (x (negb keep))) (N.shiftl (bit2N (tb false)) 1)) (bit2N (tb true)),
   N.lxor (prg aes keep (notThree s0)) (maskIf (lsb s0) (N.lxor (notThree (x (negb keep))) (bit2N (tb keep)))),
   N.lxor (prg aes keep (notThree s1)) (maskIf (lsb s1) (N.lxor (notThree (x (negb keep))) (bit2N (tb keep))))).
Proof.
  unfold keyGenStep, stepBit, stepXor.
  set (xt := N.lxor (prg aes true _) _). set (xf := N.lxor (prg aes false _) _).
  rewrite !land_one. destruct (lsb xt), (lsb xf), keep; reflexivity.
Qed.

Lemma cw_parts cw s0' s1' : keyGenStep aes keep s0 s1 = (cw, s0', s1') ->
  notThree cw = notThree (x (negb keep)) /\ N.land cw 1 = bit2N (tb true) /\ N.land (N.shiftr cw 1) 1 = bit2N (tb false).
Proof.
  rewrite step_eq. intros [= <- _ _]. generalize (tb true) (tb false) (x (negb keep)). clear. intros t1 t0 y.
  split; [|split].
  - rewrite !notThree_lxor, notThree_idem, notThree_bit, notThree_bit1, !N.lxor_0_r. done.
  - rewrite land_one', !lsb_lxor, lsb_notThree, lsb_bit1, lsb_bit. by rewrite !xorb_false_l.
  - rewrite land_one'. unfold lsb. rewrite N.shiftr_spec', !N.lxor_spec, testbit_notThree. by destruct t0, t1.
Qed.

Lemma step_traverse cw s0' s1' c s : keyGenStep aes keep s0 s1 = (cw, s0', s1') ->
  traverseOne aes s cw c = N.lxor (maskIf (lsb s) (N.lxor (notThree (x (negb keep))) (bit2N (tb c)))) (prg aes c (notThree s)).
Proof.
  intros E. destruct (cw_parts _ _ _ E) as (E1 & E2 & E3). unfold traverseOne. rewrite E1. f_equal. f_equal. f_equal.
  destruct c; done.
Qed.

Lemma step_on cw s0' s1' : keyGenStep aes keep s0 s1 = (cw, s0', s1') ->
  traverseOne aes s0 cw keep = s0' /\ traverseOne aes s1 cw keep = s1' /\ On s0' s1'.
Proof.
  intros E. rewrite !(step_traverse _ _ _ _ _ E). rewrite step_eq in E. injection E as _ <- <-.
  split; [apply N.lxor_comm|]. split; [apply N.lxor_comm|].
  unfold On. rewrite !lsb_lxor, !lsb_mask, !lsb_lxor, lsb_notThree, lsb_bit, Hon.
  assert (tb keep = negb (xorb (lsb (prg aes keep (notThree s0))) (lsb (prg aes keep (notThree s1))))) as ->.
  { unfold stepBit, stepXor. rewrite !lsb_lxor. destruct keep; destruct (lsb _), (lsb _); done. }
  destruct (lsb s1), (lsb (prg aes keep (notThree s0))), (lsb (prg aes keep (notThree s1))); done.
Qed.

Lemma step_off cw s0' s1' : keyGenStep aes keep s0 s1 = (cw, s0', s1') ->
  Off (traverseOne aes s0 cw (negb keep)) (traverseOne aes s1 cw (negb keep)).
Proof.
  intros E. rewrite !(step_traverse _ _ _ _ _ E). split.
  - rewrite !notThree_lxor, !notThree_mask, notThree_lxor, notThree_idem, notThree_bit, N.lxor_0_r. unfold stepXor.
    rewrite notThree_lxor, Hon. generalize (notThree (prg aes (negb keep) (notThree s0))) as a.
    generalize (notThree (prg aes (negb keep) (notThree s1))) as b. intros b a.
    destruct (lsb s1); cbn [negb maskIf]; rewrite N.lxor_0_l.
    + rewrite N.lxor_assoc, N.lxor_nilpotent. by rewrite N.lxor_0_r.
    + rewrite (N.lxor_comm a b), N.lxor_assoc, N.lxor_nilpotent. by rewrite N.lxor_0_r.
  - rewrite !lsb_lxor, !lsb_mask, !lsb_lxor, lsb_notThree, lsb_bit, Hon.
    assert (tb (negb keep) = xorb (lsb (prg aes (negb keep) (notThree s0))) (lsb (prg aes (negb keep) (notThree s1)))) as ->.
    { unfold stepBit, stepXor. rewrite !lsb_lxor. destruct keep; cbn [negb]; destruct (lsb _), (lsb _); done. }
    destruct (lsb s1), (lsb (prg aes (negb keep) (notThree s0))), (lsb (prg aes (negb keep) (notThree s1))); done.
Qed.
End step.

Lemma traverse_off aes cws : forall s0 s1 q, Off s0 s1 -> Off (traverse aes s0 cws q) (traverse aes s1 cws q).
Proof.
  induction cws as [|cw cws IH]; intros s0 s1 q H; [done|]. cbn [traverse]. apply IH.
  rewrite (traverseOne_off aes s0 s1) by done. done.
Qed.

(** [q] and [p] have the same [n] low bits. *)
Definition sameLow (n : nat) (q p : N) : Prop := forall i, i < N.of_nat n -> N.testbit q i = N.testbit p i.

Lemma keyGenLoop_ok aes n : forall p s0 s1 cws e0 e1, On s0 s1 -> keyGenLoop aes n p s0 s1 = (cws, e0, e1) ->
  length cws = n /\ On e0 e1 /\
  (forall q, sameLow n q p -> traverse aes s0 cws q = e0 /\ traverse aes s1 cws q = e1) /\
  (forall q, ~ sameLow n q p -> Off (traverse aes s0 cws q) (traverse aes s1 cws q)).
Proof.
  induction n as [|n IH]; intros p s0 s1 cws e0 e1 Hon E.
  - cbn in E. injection E as <- <- <-. split; [done|]. split; [done|]. split; [done|].
    intros q Hq. exfalso. apply Hq. intros i Hi. lia.
  - cbn [keyGenLoop] in E. destruct (keyGenStep aes (N.testbit p (N.of_nat n)) s0 s1) as [[cw s0'] s1'] eqn:Es.
    destruct (keyGenLoop aes n p s0' s1') as [[cws' a0] a1] eqn:El. injection E as <- <- <-.
    destruct (step_on aes _ s0 s1 Hon _ _ _ Es) as (T0 & T1 & Hon').
    destruct (IH p s0' s1' cws' a0 a1 Hon' El) as (L & He & Hs & Hd).
    split; [cbn; by rewrite L|]. split; [done|]. cbn [traverse]. rewrite L.
    assert (forall q, sameLow (S n) q p <-> N.testbit q (N.of_nat n) = N.testbit p (N.of_nat n) /\ sameLow n q p) as Hsplit.
    { intros q. split.
      - intros H. split; [apply H; lia|]. intros i Hi. apply H. lia.
      - intros [H1 H2] i Hi. destruct (decide (i = N.of_nat n)) as [->|]; [done|]. apply H2. lia. }
    split.
    + intros q [H1 H2]%Hsplit. rewrite H1, T0, T1. by apply Hs.
    + intros q Hq. destruct (decide (N.testbit q (N.of_nat n) = N.testbit p (N.of_nat n))) as [H1|H1].
      * rewrite H1, T0, T1. apply Hd. intros H2. apply Hq, Hsplit. done.
      * apply traverse_off. assert (N.testbit q (N.of_nat n) = negb (N.testbit p (N.of_nat n))) as ->
          by (destruct (N.testbit q _), (N.testbit p _); done).
        eapply step_off; eauto.
Qed.

Lemma sameLow_eq n q p : q < 2 ^ N.of_nat n -> p < 2 ^ N.of_nat n -> sameLow n q p -> q = p.
Proof.
  intros Hq Hp H. apply N.bits_inj. intros i. destruct (N.lt_ge_cases i (N.of_nat n)) as [L|L]; [by apply H|].
  rewrite <- (N.mod_small q (2 ^ N.of_nat n)), <- (N.mod_small p (2 ^ N.of_nat n)) by done.
  by rewrite !N.mod_pow2_bits_high.
Qed.

(** ** Leaves *)

(** Bit of a leaf that belongs to offset [gIdx]. *)
Definition leafBit (aes : bool -> N -> N) (s : N) (g : list N) (gIdx : N) : bool :=
  let P := 8 * (gIdx mod 16) + (gIdx mod 128) / 16 in
  match g !! N.to_nat (gIdx / 128) with
  | Some gi => xorb (N.testbit (leafBlock aes s (N.to_nat (gIdx / 128))) P) (N.testbit gi P && lsb s)
  | None => false
  end.

Lemma evalOne_leaf aes p k0 cws g : g ≠ [] ->
  let L := N.of_nat (length g) * 128 in
  evalOne aes p (k0 :: cws) g = Done (leafBit aes (traverse aes k0 cws (p / L)) g (p mod L)).
Proof.
  intros Hg L. unfold evalOne. destruct (Nat.eqb_spec (length g) 0) as [E|E]; [by apply nil_length_inv in E|].
  fold L. set (s := traverse aes k0 cws (p / L)). set (i := p mod L).
  assert (i < L) as Hi by (apply N.mod_lt; unfold L; lia).
  assert ((i mod 16 + 16 * (i / 128)) / 16 = i / 128) as E1 by lia.
  assert ((i mod 16 + 16 * (i / 128)) mod 16 = i mod 16) as E2 by lia. rewrite E1, E2.
  assert (i / 128 < N.of_nat (length g)) as Hb by (unfold L in Hi; lia).
  destruct (lookup_lt_is_Some_2 g (N.to_nat (i / 128))) as [gi Hgi]; [lia|].
  assert (readN g (i / 128) = Some gi) as -> by (by apply readN_Some).
  assert (readN (map (leafBlock aes s) (seq 0 (length g))) (i / 128) = Some (leafBlock aes s (N.to_nat (i / 128)))) as ->.
  { apply readN_Some, lookup_map_seq. lia. }
  f_equal. unfold leafBit. rewrite Hgi. rewrite N.lxor_spec.
  assert (forall b, N.testbit ((b / 2 ^ (8 * (i mod 16))) mod 256) ((i mod 128) / 16) = N.testbit b (8 * (i mod 16) + (i mod 128) / 16)) as Hbyte.
  { intros b. change 256 with (2 ^ 8). rewrite N.mod_pow2_bits_low by lia. rewrite <- N.shiftr_div_pow2, N.shiftr_spec'.
    f_equal. lia. }
  rewrite Hbyte. f_equal. destruct (lsb s).
  - change (bit2N true) with 1. by rewrite N.mul_1_r, Hbyte, andb_true_r.
  - change (bit2N false) with 0. by rewrite N.mul_0_r, N.bits_0, andb_false_r.
Qed.

Lemma leafBit_off aes s0 s1 g i : Off s0 s1 -> leafBit aes s0 g i = leafBit aes s1 g i.
Proof. intros [E1 E2]. unfold leafBit, leafBlock. by rewrite E1, E2. Qed.

Lemma groupWord_ok aes gs i s0 s1 : i < N.of_nat gs * 128 ->
  exists g, groupWord aes gs i s0 s1 = Some g /\ length g = gs /\
    (On s0 s1 -> forall q, q < N.of_nat gs * 128 -> xorb (leafBit aes s0 g q) (leafBit aes s1 g q) = (q =? i)).
Proof.
  intros Hi. unfold groupWord.
  assert ((i mod 16 + 16 * (i / 128)) / 16 = i / 128) as -> by lia.
  assert ((i mod 16 + 16 * (i / 128)) mod 16 = i mod 16) as -> by lia.
  set (gs0 := map _ _). assert (length gs0 = gs) as L by (unfold gs0; by rewrite map_length, seq_length).
  assert (forall j, (j < gs)%nat -> gs0 !! j = Some (N.lxor (leafBlock aes s0 j) (leafBlock aes s1 j))) as Hgs.
  { intros j Hj. by apply lookup_map_seq with (f := fun j => N.lxor (leafBlock aes s0 j) (leafBlock aes s1 j)). }
  assert (readN gs0 (i / 128) = Some (N.lxor (leafBlock aes s0 (N.to_nat (i / 128))) (leafBlock aes s1 (N.to_nat (i / 128))))) as ->
    by (apply readN_Some, Hgs; lia).
  eexists. split; [apply writeN_Some; split; [rewrite L; lia|reflexivity]|]. split; [by rewrite insert_length|].
  intros Hon q Hq. unfold leafBit.
  set (P := 8 * (q mod 16) + (q mod 128) / 16). set (Pi := 8 * (i mod 16) + (i mod 128) / 16).
  destruct (decide (q / 128 = i / 128)) as [E|E].
  - rewrite E, list_lookup_insert by lia. rewrite N.lxor_spec, N.shiftl_1_l, N.pow2_bits_eqb, N.lxor_spec.
    assert ((Pi =? P) = (q =? i)) as ->.
    { apply Bool.eq_true_iff_eq. rewrite !N.eqb_eq. unfold P, Pi. lia. }
    rewrite Hon. destruct (lsb s1), (q =? i), (N.testbit _ P), (N.testbit _ P); done.
  - rewrite list_lookup_insert_ne by lia. rewrite Hgs by lia. rewrite N.lxor_spec.
    assert ((q =? i) = false) as -> by (apply N.eqb_neq; congruence).
    rewrite Hon. destruct (lsb s1), (N.testbit _ P), (N.testbit _ P); done.
Qed.

Lemma root_on b0 b1 : On (N.lxor (N.land b0 (2 ^ 128 - 2)) (N.lxor (N.land b1 1) 1)) b1.
Proof.
  unfold On. rewrite land_one'. change 1 with (bit2N true) at 1. rewrite bit2N_lxor, lsb_lxor, lsb_bit.
  unfold lsb at 1. rewrite N.land_spec. change (N.testbit (2 ^ 128 - 2) 0) with false. rewrite andb_false_r.
  by destruct (lsb b1).
Qed.

Lemma keyGen_ok aes prng depth gs idx seed : (0 < gs)%nat ->
  exists s0 s1 cws g, keyGen aes prng depth gs idx seed = Done (s0 :: cws, g, s1 :: cws, g) /\
    length cws = depth /\ length g = gs /\ lsb s0 = negb (lsb s1) /\
    (idx < domainSize depth gs ->
     forall q, q < domainSize depth gs -> exists b0 b1, evalOne aes q (s0 :: cws) g = Done b0 /\
       evalOne aes q (s1 :: cws) g = Done b1 /\ xorb b0 b1 = (q =? idx)).
Proof.
  intros Hgs. unfold keyGen. destruct (Nat.eqb_spec gs 0) as [E|_]; [lia|].
  set (L := N.of_nat gs * 128). assert (0 < L) as HL by (unfold L; lia).
  set (s1 := snd (prng seed)). set (s0 := N.lxor (N.land (fst (prng seed)) _) _).
  assert (On s0 s1) as Hon by apply root_on.
  destruct (keyGenLoop aes depth (idx / L) s0 s1) as [[cws e0] e1] eqn:El.
  destruct (keyGenLoop_ok aes depth _ _ _ _ _ _ Hon El) as (Lc & He & Hs & Hd).
  destruct (groupWord_ok aes gs (idx mod L) e0 e1) as (g & -> & Lg & Hg).
  { apply N.mod_lt. lia. }
  exists s0, s1, cws, g. split; [done|]. split; [done|]. split; [done|]. split; [done|].
  intros Hidx q Hq. assert (g ≠ []) as Hne by (intros ->; cbn in Lg; lia).
  rewrite !evalOne_leaf by done. rewrite Lg. fold L. eexists _, _. split; [done|]. split; [done|].
  assert (forall p, p < domainSize depth gs -> p / L < 2 ^ N.of_nat depth) as Hdom.
  { intros p Hp. apply N.div_lt_upper_bound; [lia|]. unfold domainSize in Hp. unfold L. lia. }
  destruct (decide (q / L = idx / L)) as [E|E].
  - destruct (Hs (q / L)) as [-> ->]; [by rewrite E|]. rewrite Hg by (done || (apply N.mod_lt; lia)).
    apply Bool.eq_true_iff_eq. rewrite !N.eqb_eq. split; [|by intros ->]. intros E2.
    rewrite (N.div_mod q L), (N.div_mod idx L) by lia. congruence.
  - rewrite (leafBit_off aes _ (traverse aes s1 cws (q / L))).
    + rewrite xorb_nilpotent. symmetry. apply N.eqb_neq. congruence.
    + apply Hd. intros Hsame. apply E. eapply sameLow_eq; [| |exact Hsame]; by apply Hdom.
Qed.
