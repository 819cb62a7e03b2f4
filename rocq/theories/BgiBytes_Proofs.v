(** Positions given as bytes. *)
From Verif Require Import Base Bgi_Model Bgi_Spec Bgi_Proofs.

Lemma bitsToN_spec n bit idx i : N.testbit (bitsToN n bit idx) i =
  (if i <? N.of_nat n then bit (N.to_nat i) || N.testbit idx i else N.testbit idx i).
Proof.
  induction n as [|n IH]; cbn [bitsToN].
  - destruct (N.ltb_spec i (N.of_nat 0)); [lia|done].
  - destruct (N.ltb_spec i (N.of_nat (S n))) as [L|L].
    + destruct (decide (i = N.of_nat n)) as [->|Hne].
      * destruct (N.ltb_spec (N.of_nat n) (N.of_nat n)); [lia|]. rewrite Nat2N.id.
        destruct (bit n); [by rewrite N.setbit_eq|]. by rewrite IH.
      * destruct (N.ltb_spec i (N.of_nat n)); [|lia]. destruct (bit n); [rewrite N.setbit_neq by congruence|]; by rewrite IH.
    + destruct (N.ltb_spec i (N.of_nat n)); [lia|]. destruct (bit n); [rewrite N.setbit_neq by lia|]; by rewrite IH.
Qed.

Lemma bytes_roundtrip n idx : (n <= 16)%nat -> idx < 2 ^ (8 * N.of_nat n) ->
  bytesToUint128 (map (fun j => (idx / 2 ^ (8 * N.of_nat j)) mod 256) (seq 0 n)) = Done idx.
Proof.
  intros Hn Hi. unfold bytesToUint128. rewrite map_length, seq_length.
  destruct (Nat.ltb_spec 16 n) as [|_]; [lia|]. f_equal. apply N.bits_inj. intros i. rewrite bitsToN_spec, N.bits_0, orb_false_r.
  destruct (N.ltb_spec i (N.of_nat (n * 8))) as [L|L].
  - assert (N.to_nat i / 8 < n)%nat as Hlt by (apply Nat.div_lt_upper_bound; lia).
    rewrite (lookup_map_seq (fun j => (idx / 2 ^ (8 * N.of_nat j)) mod 256)) by done.
    assert (N.to_nat i mod 8 < 8)%nat as Hm by (apply Nat.mod_upper_bound; lia).
    change 256 with (2 ^ 8). rewrite N.mod_pow2_bits_low by lia.
    rewrite <- N.shiftr_div_pow2, N.shiftr_spec'. f_equal. pose proof (Nat.div_mod (N.to_nat i) 8 ltac:(lia)). lia.
  - rewrite <- (N.mod_small idx (2 ^ (8 * N.of_nat n))) by done. rewrite N.mod_pow2_bits_high by lia. done.
Qed.

Lemma evalOneBytes_ok aes k0 cws g a idx : length g = (2 ^ a)%nat ->
  (length cws + a + 7 <= 128)%nat -> idx < domainSize (length cws) (length g) ->
  exists bytes, Forall (fun b => b < 256) bytes /\ bytesToUint128 bytes = Done idx /\
    evalOneBytes aes bytes (k0 :: cws) g = evalOne aes idx (k0 :: cws) g.
Proof.
  intros Hg Hd Hi. unfold evalOneBytes. rewrite Hg.
  assert (128 * N.of_nat (2 ^ a) = 2 ^ (N.of_nat a + 7)) as E.
  { rewrite N.pow_add_r, Nat2N.inj_pow. change (2 ^ 7) with 128. change (N.of_nat 2) with 2. lia. }
  rewrite E, N.log2_pow2 by lia.
  set (n := ((length cws + (a + 7) + 7) / 8)%nat).
  assert (n <= 16)%nat as Hn by (unfold n; lia).
  assert (idx < 2 ^ (8 * N.of_nat n)) as Hlt.
  { unfold domainSize in Hi. rewrite Hg, <- N.mul_assoc, (N.mul_comm _ 128), E, <- N.pow_add_r in Hi.
    eapply N.lt_le_trans; [exact Hi|]. apply N.pow_le_mono_r; [done|]. unfold n. lia. }
  pose proof (bytes_roundtrip n idx Hn Hlt) as R.
  exists (map (fun j => (idx / 2 ^ (8 * N.of_nat j)) mod 256) (seq 0 n)). split; [|split; [done|]].
  - apply Forall_forall. intros b Hb. apply elem_of_list_fmap in Hb as (j & -> & _). apply N.mod_lt. done.
  - rewrite R, map_length, seq_length.
    destruct (N.eqb_spec (N.of_nat n) ((N.of_nat (length cws) + (N.of_nat a + 7) + 7) / 8)) as [_|X]; [done|]. exfalso. apply X. unfold n. lia.
Qed.

(** Three group blocks, depth 0: 384 positions, but only one byte is accepted. *)
Lemma evalOneBytes_gap aes k0 g0 g1 g2 bytes : Forall (fun b => b < 256) bytes -> bytesToUint128 bytes = Done 300 ->
  evalOneBytes aes bytes [k0] [g0; g1; g2] = Thrown false.
Proof.
  intros F E. unfold evalOneBytes. cbn [length]. change (N.log2 (128 * N.of_nat 3)) with 8. change ((N.of_nat 0 + 8 + 7) / 8) with 1.
  destruct (N.eqb_spec (N.of_nat (length bytes)) 1) as [L|]; [|done]. exfalso.
  destruct bytes as [|b [|? ?]]; cbn in L; [lia| |lia]. apply Forall_inv in F.
  unfold bytesToUint128 in E. destruct (Nat.ltb_spec 16 (length [b])) as [H|H]; [cbn in H; lia|]. match type of E with Done ?x = _ => assert (x = 300) as E' by congruence end.
  assert (N.testbit 300 8 = true) as T by done. rewrite <- E', bitsToN_spec in T. cbn in T. done.
Qed.
