(** Proofs about the OT input length. *)
From stdpp Require Import sets.
From Verif Require Import Base Rr17_Model Rr17_Proofs Rr17a_Model Rr17b_Model OtWidth_Model OtWidth_Spec.

Lemma phase_small n : N.of_nat n < 2 ^ 64 -> phase n <= 64.
Proof. intros H. apply phase_le_64. lia. Qed.

Lemma two64_val : two64 = 18446744073709551616.
Proof. done. Qed.

Lemma width_given s n b : b < two64 -> b <> noBitSize -> phase n <= b -> phase n <= 64 -> otWidth s n b = (false, b - phase n).
Proof.
  intros Hb Hne Hle Hp. unfold otWidth. rewrite (proj2 (N.eqb_neq b noBitSize) Hne). f_equal. rewrite two64_val in *.
  replace (b + (18446744073709551616 - phase n)) with (b - phase n + 1 * 18446744073709551616) by lia.
  rewrite N.mod_add by lia. apply N.mod_small. lia.
Qed.

Lemma width_wrapped s n b : b < phase n -> phase n <= 64 -> otWidth s n b = (false, two64 - (phase n - b)).
Proof.
  intros Hb Hp. unfold otWidth. assert (b <> noBitSize) as Hne by (unfold noBitSize; rewrite two64_val; lia).
  rewrite (proj2 (N.eqb_neq b noBitSize) Hne). f_equal. rewrite two64_val in *.
  rewrite N.mod_small by lia. lia.
Qed.

Lemma width_default s n : 0 < s -> s + phase n <= two64 -> otWidth s n noBitSize = (true, s + phase n - 1).
Proof.
  intros Hs Hp. unfold otWidth. rewrite N.eqb_refl. f_equal. rewrite two64_val in *.
  replace (s + phase n + (18446744073709551616 - 1)) with (s + phase n - 1 + 1 * 18446744073709551616) by lia.
  rewrite N.mod_add by lia. apply N.mod_small. lia.
Qed.

Lemma shifted_covered b p x : b <= 128 -> p <= b -> p <= 64 -> x < 2 ^ b -> shiftRight x p < 2 ^ (b - p).
Proof.
  intros Hb Hp H64 Hx. assert (2 ^ b <= 2 ^ 128) as L by (apply N.pow_le_mono_r; lia).
  rewrite shiftRight_div by lia. apply N.div_lt_upper_bound; [apply N.pow_nonzero; lia|].
  rewrite <- N.pow_add_r. replace (p + (b - p)) with b by lia. done.
Qed.

Lemma rr17a_covers s P b : N.of_nat (Rr17a_Model.pN P) < 2 ^ 64 -> phase (Rr17a_Model.pN P) <= b -> b <= 128 ->
  Rr17a_Model.pHash P = (otWidth s (Rr17a_Model.pN P) b).1 -> covers b (otWidth s (Rr17a_Model.pN P) b).2 (nco P).
Proof.
  intros Hn Hp Hb Hh x Hx. pose proof (phase_small _ Hn) as H64.
  assert (otWidth s (Rr17a_Model.pN P) b = (false, b - phase (Rr17a_Model.pN P))) as E by
    (apply width_given; [rewrite two64_val; lia|unfold noBitSize; rewrite two64_val; lia|done|done]).
  rewrite E in *. cbn [fst snd] in *. unfold nco, Rr17a_Model.hashed. rewrite Hh. by apply shifted_covered.
Qed.

Lemma rr17b_covers s P b : N.of_nat (Rr17b_Model.pN P) < 2 ^ 64 -> b <= 128 -> Rr17b_Model.pHash P = (otWidth s (Rr17b_Model.pN P) b).1 ->
  covers b (otWidth s (Rr17b_Model.pN P) b).2 (otInput P) <-> phase (Rr17b_Model.pN P) = 0 \/ b < phase (Rr17b_Model.pN P).
Proof.
  intros Hn Hb Hh. pose proof (phase_small _ Hn) as H64. set (p := phase (Rr17b_Model.pN P)) in *.
  destruct (N.lt_ge_cases b p) as [L|G].
  - assert (otWidth s (Rr17b_Model.pN P) b = (false, two64 - (p - b))) as E by (apply width_wrapped; done).
    rewrite E in *. cbn [fst snd] in *. split; [intros _; by right|]. intros _ x Hx. unfold otInput. rewrite Hh.
    eapply N.lt_le_trans; [exact Hx|]. apply N.pow_le_mono_r; [lia|]. rewrite two64_val. lia.
  - assert (otWidth s (Rr17b_Model.pN P) b = (false, b - p)) as E by
      (apply width_given; [rewrite two64_val; lia|unfold noBitSize; rewrite two64_val; lia|done|done]).
    rewrite E in *. cbn [fst snd] in *. split.
    + intros C. left. destruct (N.eq_dec p 0) as [|Hz]; [done|exfalso].
      assert (0 < 2 ^ b) as Hpos by (apply N.neq_0_lt_0; apply N.pow_nonzero; lia).
      specialize (C (2 ^ b - 1) ltac:(lia)). unfold otInput in C. rewrite Hh in C.
      assert (2 ^ (b - p) * 2 <= 2 ^ b) as H2.
      { replace b with ((b - p) + p) at 2 by lia. rewrite N.pow_add_r. apply N.mul_le_mono_l.
        change 2 with (2 ^ 1) at 1. apply N.pow_le_mono_r; lia. }
      assert (0 < 2 ^ (b - p)) by (apply N.neq_0_lt_0; apply N.pow_nonzero; lia). lia.
    + intros [Hz|]; [|lia]. intros x Hx. unfold otInput. rewrite Hh, Hz, N.sub_0_r. done.
Qed.

(** ** Collisions of hashed items *)

Lemma ceilDiv_spec a b : 0 < b -> a <= b * ceilDiv a b /\ b * ceilDiv a b < a + b.
Proof.
  intros Hb. unfold ceilDiv. pose proof (N.div_mod a b ltac:(lia)) as D. pose proof (N.mod_lt a b ltac:(lia)) as L.
  destruct (N.eqb_spec (a mod b) 0) as [E|E]; rewrite ?E in D; nia.
Qed.

Lemma low_parts p v : p <= 64 -> v mod 2 ^ 64 = v mod 2 ^ p + 2 ^ p * (v / 2 ^ p mod 2 ^ (64 - p)).
Proof.
  intros Hp. replace (2 ^ 64) with (2 ^ p * 2 ^ (64 - p)) by (rewrite <- N.pow_add_r; f_equal; lia).
  rewrite N.mod_mul_r by (apply N.pow_nonzero; lia). done.
Qed.

(** Numbers with the same parts above bit [p] whose low halves agree modulo [nb] are equal as soon as their low [p] bits are in the
    same interval of length [nb]. *)
Lemma low_inj p nb v v' : p <= 64 -> 0 < nb -> v / 2 ^ p = v' / 2 ^ p -> v mod 2 ^ 64 mod nb = v' mod 2 ^ 64 mod nb ->
  v mod 2 ^ p / nb = v' mod 2 ^ p / nb -> v = v'.
Proof.
  intros Hp Hnb E M Q. rewrite (low_parts p v Hp), (low_parts p v' Hp) in M. rewrite E in M.
  set (K := 2 ^ p * (v' / 2 ^ p mod 2 ^ (64 - p))) in *.
  pose proof (N.div_mod v (2 ^ p) ltac:(apply N.pow_nonzero; lia)) as D. pose proof (N.div_mod v' (2 ^ p) ltac:(apply N.pow_nonzero; lia)) as D'.
  assert (v mod 2 ^ p = v' mod 2 ^ p) as Elo; [|rewrite D, D', E, Elo; done].
  set (x := v mod 2 ^ p) in *. set (y := v' mod 2 ^ p) in *. clearbody x y K. clear D D' E.
  pose proof (N.div_mod x nb ltac:(lia)) as Dx. pose proof (N.div_mod y nb ltac:(lia)) as Dy. rewrite <- Q in Dy.
  set (q := x / nb) in *. pose proof (N.mod_lt x nb ltac:(lia)) as Lx. pose proof (N.mod_lt y nb ltac:(lia)) as Ly.
  set (a := x mod nb) in *. set (c := y mod nb) in *. clearbody q a c.
  assert (forall z, (z + nb * q + K) mod nb = (z + K) mod nb) as S.
  { intros z. replace (z + nb * q + K) with (z + K + q * nb) by lia. apply N.mod_add. lia. }
  rewrite Dx, Dy in M. replace (nb * q + a + K) with (a + nb * q + K) in M by lia. replace (nb * q + c + K) with (c + nb * q + K) in M by lia.
  rewrite !S in M.
  pose proof (N.div_mod (a + K) nb ltac:(lia)) as Da. pose proof (N.div_mod (c + K) nb ltac:(lia)) as Dc. rewrite M in Da.
  set (r := (c + K) mod nb) in *. set (qa := (a + K) / nb) in *. set (qc := (c + K) / nb) in *. clearbody r qa qc.
  assert (qa = qc) as Eq; [|subst; lia].
  destruct (N.lt_trichotomy qa qc) as [H|[H|H]]; [|done|].
  - assert (nb * (qa + 1) <= nb * qc) by (apply N.mul_le_mono_l; lia). lia.
  - assert (nb * (qc + 1) <= nb * qa) by (apply N.mul_le_mono_l; lia). lia.
Qed.

Lemma mix_inj h h' C a a' : a < C -> a' < C -> h * C + a = h' * C + a' -> h = h' /\ a = a'.
Proof.
  intros L1 L2 E. assert (h = h') as Eh.
  { destruct (N.lt_trichotomy h h') as [H|[H|H]]; [|done|].
    - assert ((h + 1) * C <= h' * C) by (apply N.mul_le_mono_r; lia). lia.
    - assert ((h' + 1) * C <= h * C) by (apply N.mul_le_mono_r; lia). lia. }
  subst. split; [done|]. lia.
Qed.

Lemma mix_lt h C a T : a < C -> h < T -> h * C + a < T * C.
Proof. intros L1 L2. assert ((h + 1) * C <= T * C) by (apply N.mul_le_mono_r; lia). lia. Qed.

(** Where a colliding number falls: [v / 2^(p + m)] and the interval of its low [p] bits. *)
Definition spot (p m C nb v : N) : N := v / 2 ^ (p + m) * C + v mod 2 ^ p / nb.

Lemma upper_eq p m v v' : v / 2 ^ (p + m) = v' / 2 ^ (p + m) -> (v / 2 ^ p) mod 2 ^ m = (v' / 2 ^ p) mod 2 ^ m -> v / 2 ^ p = v' / 2 ^ p.
Proof.
  intros E M. rewrite (N.div_mod (v / 2 ^ p) (2 ^ m)) by (apply N.pow_nonzero; lia). rewrite (N.div_mod (v' / 2 ^ p) (2 ^ m)) by (apply N.pow_nonzero; lia).
  rewrite M. f_equal. f_equal. rewrite !N.div_div by (apply N.pow_nonzero; lia). rewrite <- !N.pow_add_r. done.
Qed.

Lemma bound_NoDup (l : list N) (B : N) : NoDup l -> Forall (fun x => x < B) l -> N.of_nat (length l) <= B.
Proof.
  intros H F. assert (length l <= length (seq 0 (N.to_nat B)))%nat as L; [|rewrite seq_length in L; lia].
  rewrite <- (map_length N.to_nat l). apply submseteq_length. apply NoDup_submseteq.
  - by apply (NoDup_fmap_2 N.to_nat).
  - intros x Hx. apply elem_of_list_fmap in Hx as (y & -> & Hy). rewrite Forall_forall in F. specialize (F y Hy).
    apply elem_of_seq. lia.
Qed.

Definition collides (nb : nat) (p m : N) : N -> N -> Prop := clash (binOf nb) (fun v => otReads m (shiftRight v p)).

Lemma collide_count (nb : nat) p m u l : u < 2 ^ 128 -> p <= 64 -> (0 < nb)%nat -> blocksWith (collides nb p m u) l ->
  N.of_nat (length l) <= 2 ^ (128 - (p + m)) * ceilDiv (2 ^ p) (N.of_nat nb).
Proof.
  intros Hu Hp Hnb [Hd Hl]. set (C := ceilDiv (2 ^ p) (N.of_nat nb)).
  assert (0 < N.of_nat nb) as Hnb' by lia. destruct (ceilDiv_spec (2 ^ p) (N.of_nat nb) Hnb') as [HC _]. fold C in HC.
  assert (forall v, v mod 2 ^ p / N.of_nat nb < C) as Hlo.
  { intros v. apply N.div_lt_upper_bound; [lia|]. eapply N.lt_le_trans; [|exact HC]. apply N.mod_lt. apply N.pow_nonzero. lia. }
  rewrite <- (map_length (spot p m C (N.of_nat nb)) l). apply bound_NoDup.
  - assert (forall k, NoDup k -> Forall (fun v => v < 2 ^ 128 /\ collides nb p m u v) k -> NoDup (map (spot p m C (N.of_nat nb)) k)) as G; [|by apply G].
    clear l Hd Hl. induction k as [|v k IH]; intros Hd Hl; [constructor|]. cbn [map]. apply NoDup_cons in Hd as [Hn Hd].
    apply Forall_cons in Hl as [[Hv [Bv Rv]] Hl]. apply NoDup_cons. split; [|by apply IH].
    intros Hin. apply elem_of_list_In, in_map_iff in Hin as (v' & E & Hin). apply elem_of_list_In in Hin.
    rewrite Forall_forall in Hl. destruct (Hl v' Hin) as [Hv' [Bv' Rv']]. apply Hn.
    assert (v = v') as ->; [|done]. unfold spot in E.
    pose proof (Hlo v) as L1. pose proof (Hlo v') as L2.
    destruct (mix_inj _ _ _ _ _ L1 L2 (eq_sym E)) as [Eh Ea].
    apply (low_inj p (N.of_nat nb) v v' Hp Hnb'); [|unfold binOf in Bv, Bv'; rewrite <- Bv' in Bv; by apply N2Nat.inj in Bv|done].
    apply (upper_eq p m); [done|]. unfold otReads in Rv, Rv'. rewrite !shiftRight_div in Rv, Rv' by done. by rewrite Rv, Rv'.
  - rewrite Forall_forall in *. intros x Hx. apply elem_of_list_In, in_map_iff in Hx as (v & <- & Hv). apply elem_of_list_In in Hv.
    destruct (Hl v Hv) as [Hv128 _]. unfold spot. pose proof (Hlo v) as L.
    assert (v / 2 ^ (p + m) < 2 ^ (128 - (p + m))) as Lh.
    { apply N.div_lt_upper_bound; [apply N.pow_nonzero; lia|]. rewrite <- N.pow_add_r. eapply N.lt_le_trans; [exact Hv128|].
      apply N.pow_le_mono_r; lia. }
    by apply mix_lt.
Qed.

(** With [2^p] bins the bound is reached. *)
Lemma collide_exact (nb : nat) p m u : u < 2 ^ 128 -> p <= 64 -> p + m <= 128 -> N.of_nat nb = 2 ^ p ->
  exists l, blocksWith (collides nb p m u) l /\ N.of_nat (length l) = 2 ^ (128 - (p + m)).
Proof.
  intros Hu Hp Hm Hnb. set (D := 2 ^ (p + m)). set (r := u mod D).
  assert (0 < D) as HD by (apply N.neq_0_lt_0; apply N.pow_nonzero; lia).
  exists (map (fun h => N.of_nat h * D + r) (seq 0 (N.to_nat (2 ^ (128 - (p + m)))))).
  assert (r < D) as Hr by (apply N.mod_lt; lia).
  split; [split|].
  - change (NoDup ((fun h => N.of_nat h * D + r) <$> seq 0 (N.to_nat (2 ^ (128 - (p + m)))))).
    apply NoDup_fmap_2; [|apply NoDup_seq]. intros a b E. assert (N.of_nat a * D = N.of_nat b * D) as E' by lia.
    apply N.mul_cancel_r in E'; lia.
  - rewrite Forall_forall. intros v Hv. apply elem_of_list_In, in_map_iff in Hv as (h & <- & Hh). apply in_seq in Hh.
    assert (N.of_nat h + 1 <= 2 ^ (128 - (p + m))) as Hh' by lia.
    assert (2 ^ (128 - (p + m)) * D = 2 ^ 128) as HT by (unfold D; rewrite <- N.pow_add_r; f_equal; lia).
    assert (N.of_nat h * D + r < 2 ^ 128) as Hlt.
    { assert ((N.of_nat h + 1) * D <= 2 ^ (128 - (p + m)) * D) by (apply N.mul_le_mono_r; done). lia. }
    split; [done|]. set (v := N.of_nat h * D + r) in *.
    assert (v mod D = u mod D) as Emod by (unfold v; rewrite N.add_comm, N.mod_add by lia; unfold r; apply N.mod_mod; lia).
    assert (D = 2 ^ p * 2 ^ m) as ED by (unfold D; by rewrite N.pow_add_r).
    rewrite ED in Emod. rewrite !N.mod_mul_r in Emod by (apply N.pow_nonzero; lia).
    assert (v mod 2 ^ p = u mod 2 ^ p /\ v / 2 ^ p mod 2 ^ m = u / 2 ^ p mod 2 ^ m) as [E1 E2].
    { pose proof (N.mod_lt v (2 ^ p) ltac:(apply N.pow_nonzero; lia)). pose proof (N.mod_lt u (2 ^ p) ltac:(apply N.pow_nonzero; lia)).
      rewrite !(N.mul_comm (2 ^ p)), !(N.add_comm _ (_ * _)) in Emod. apply and_comm. by apply (mix_inj _ _ (2 ^ p)). }
    split.
    + unfold binOf. f_equal. rewrite Hnb. rewrite (low_parts p v Hp), (low_parts p u Hp).
      rewrite !(N.mul_comm (2 ^ p)), !N.mod_add by (apply N.pow_nonzero; lia). by rewrite !N.mod_mod, E1 by (apply N.pow_nonzero; lia).
    + unfold otReads. rewrite !shiftRight_div by done. done.
  - rewrite map_length, seq_length. lia.
Qed.

(** The pairs of the two sets together. *)
Lemma collide_total s (n nb : nat) m u l : 0 < s -> (0 < n)%nat -> N.of_nat n < 2 ^ 64 -> (0 < nb)%nat -> u < 2 ^ 128 ->
  s + 2 * phase n <= 129 -> (otWidth s n noBitSize).2 <= m -> blocksWith (collides nb (phase n) m u) l ->
  N.of_nat (length l) * 2 ^ (s + 2 * phase n) <= 2 * 2 ^ 128 * ceilDiv (2 ^ phase n) (N.of_nat nb).
Proof.
  intros Hs Hn Hn64 Hnb Hu Hsz Hm Hl. pose proof (phase_small n Hn64) as Hp.
  rewrite width_default in Hm by (rewrite ?two64_val; lia). cbn [snd] in Hm.
  pose proof (collide_count nb (phase n) m u l Hu Hp Hnb Hl) as Hc. set (p := phase n) in *. set (C := ceilDiv _ _) in *.
  assert (2 ^ (128 - (p + m)) * 2 ^ (s + 2 * p) <= 2 * 2 ^ 128) as HB.
  { replace (2 * 2 ^ 128) with (2 ^ 129) by reflexivity. rewrite <- N.pow_add_r. apply N.pow_le_mono_r; lia. }
  transitivity (2 ^ (128 - (p + m)) * C * 2 ^ (s + 2 * p)); [by apply N.mul_le_mono_r|].
  replace (2 ^ (128 - (p + m)) * C * 2 ^ (s + 2 * p)) with (2 ^ (128 - (p + m)) * 2 ^ (s + 2 * p) * C) by lia.
  by apply N.mul_le_mono_r.
Qed.

Lemma width_iff s n b : N.of_nat n < 2 ^ 64 -> b <= 128 -> (otWidth s n b).2 <= b <-> phase n <= b.
Proof.
  intros Hn Hb. pose proof (phase_small _ Hn) as H64. destruct (N.lt_ge_cases b (phase n)) as [L|G].
  - rewrite width_wrapped by done. cbn [snd]. rewrite two64_val. lia.
  - rewrite width_given; [|rewrite two64_val; lia|unfold noBitSize; rewrite two64_val; lia|done|done]. cbn [snd]. lia.
Qed.

Lemma collide_total_exact s (n nb : nat) u : 0 < s -> (0 < n)%nat -> N.of_nat n < 2 ^ 64 -> u < 2 ^ 128 -> s + 2 * phase n <= 129 -> N.of_nat nb = 2 ^ phase n ->
  exists l, blocksWith (collides nb (phase n) (otWidth s n noBitSize).2 u) l /\ N.of_nat (length l) * 2 ^ (s + 2 * phase n) = 2 * 2 ^ 128.
Proof.
  intros Hs Hn Hn64 Hu Hsz Hnb. pose proof (phase_small n Hn64) as Hp. rewrite width_default by (rewrite ?two64_val; lia). cbn [snd].
  destruct (collide_exact nb (phase n) (s + phase n - 1) u Hu Hp ltac:(lia) Hnb) as (l & Hl & E). exists l. split; [done|].
  rewrite E. replace (2 * 2 ^ 128) with (2 ^ 129) by reflexivity. rewrite <- N.pow_add_r. f_equal. lia.
Qed.

Lemma ceil_bins (n : nat) : (0 < n)%nat -> ceilDiv (2 ^ phase n) (N.of_nat n) * (N.of_nat n * N.of_nat n) <= 2 * 2 ^ (2 * phase n).
Proof.
  intros Hn. destruct (ceilDiv_spec (2 ^ phase n) (N.of_nat n) ltac:(lia)) as [_ H]. pose proof (phase_ge n Hn) as G.
  set (C := ceilDiv _ _) in *. replace (2 * phase n) with (phase n + phase n) by lia. rewrite N.pow_add_r. set (q := 2 ^ phase n) in *. set (k := N.of_nat n) in *. clearbody C q k.
  assert (k * C <= 2 * q) as H1 by lia. replace (C * (k * k)) with (k * C * k) by lia.
  transitivity (2 * q * k); [by apply N.mul_le_mono_r|]. rewrite <- N.mul_assoc. apply N.mul_le_mono_l. by apply N.mul_le_mono_l.
Qed.

Lemma collide_expected s (n : nat) m u l : 0 < s -> (0 < n)%nat -> N.of_nat n < 2 ^ 64 -> u < 2 ^ 128 ->
  s + 2 * phase n <= 129 -> (otWidth s n noBitSize).2 <= m -> blocksWith (collides n (phase n) m u) l ->
  N.of_nat n * N.of_nat n * N.of_nat (length l) * 2 ^ s <= 4 * 2 ^ 128.
Proof.
  intros Hs Hn Hn64 Hu Hsz Hm Hl. pose proof (collide_total s n n m u l Hs Hn Hn64 Hn Hu Hsz Hm Hl) as H.
  pose proof (ceil_bins n Hn) as G. rewrite N.pow_add_r in H. set (Q := 2 ^ (2 * phase n)) in *.
  assert (0 < Q) as HQ by (apply N.neq_0_lt_0; apply N.pow_nonzero; lia).
  set (X := 2 ^ 128) in *. set (C := ceilDiv _ _) in *. set (L := N.of_nat (length l)) in *. set (k := N.of_nat n) in *. set (S := 2 ^ s) in *.
  clearbody Q X C L k S. apply (N.mul_le_mono_pos_r _ _ Q HQ).
  replace (k * k * L * S * Q) with (k * k * (L * (S * Q))) by lia.
  transitivity (k * k * (2 * X * C)); [by apply N.mul_le_mono_l|].
  replace (k * k * (2 * X * C)) with (2 * X * (C * (k * k))) by lia.
  transitivity (2 * X * (2 * Q)); [by apply N.mul_le_mono_l|]. lia.
Qed.
