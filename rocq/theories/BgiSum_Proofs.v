(** [fullDomain] and the PIR built on it. *)
From Verif Require Import Base Bgi_Model Bgi_Spec Bgi_Proofs BgiFull_Proofs.

(** ** Leaves of the whole tree *)

Lemma topTree aes k0 cws n : (n <= length cws)%nat ->
  exists r, topLevels aes n cws [k0] = Some r /\ r = map (fun x => traverse aes k0 (take n cws) (N.of_nat x)) (seq 0 (2 ^ n)).
Proof.
  intros H. destruct (topLevels_ok aes n cws [k0] H) as (r & -> & Lr & Hr). exists r. split; [done|].
  cbn [length] in Lr. rewrite Nat.mul_1_l in Lr.
  apply list_eq_same_length with (n := (2 ^ n)%nat); [by rewrite map_length, seq_length|done|].
  intros x a b Hx Ha Hb. rewrite lookup_map_seq in Hb by done.
  pose proof (Hr 0%nat k0 x eq_refl Hx) as E. rewrite Nat.mul_0_l, Nat.add_0_l in E. congruence.
Qed.

(** The lane of subtree [j] at leaf [idx] is leaf [j * 2 ^ dEnd + idx] of the tree. *)
Lemma subtree_leaf aes k0 cws n j idx : (n <= length cws)%nat -> idx < 2 ^ N.of_nat (length cws - n) ->
  traverse aes (traverse aes k0 (take n cws) (N.of_nat j)) (drop n cws) idx
  = traverse aes k0 cws (N.of_nat j * 2 ^ N.of_nat (length cws - n) + idx).
Proof.
  intros H Hi. rewrite <- (take_drop n cws) at 3. rewrite traverse_app, drop_length.
  assert (2 ^ N.of_nat (length cws - n) ≠ 0) as N0 by (apply N.pow_nonzero; done).
  rewrite N.div_add_l, (N.div_small idx) by done. rewrite N.add_0_r.
  apply traverse_low. rewrite drop_length. intros i Hb.
  set (D := N.of_nat (length cws - n)) in *.
  rewrite <- (N.mod_pow2_bits_low _ D i) by done. rewrite <- (N.mod_pow2_bits_low (_ + _) D i) by done. f_equal.
  rewrite (N.add_comm (_ * _)), N.mod_add by done. done.
Qed.

(** ** Sums *)

Lemma smallLoop_ok aes data k0 cws g : forall n x sum,
  N.of_nat ((x + n) * (length g * 128)) <= N.of_nat (length data) ->
  smallLoop aes data g (map (fun x => traverse aes k0 cws (N.of_nat x)) (seq x n)) (N.of_nat (x * (length g * 128))) sum
  = Some (N.lxor sum (xorAll (map (term (evalBit aes (k0 :: cws) g) data)
      (concat (map (fun x => map (fun i => N.of_nat (x * (length g * 128) + i)) (seq 0 (length g * 128))) (seq x n)))))).
Proof.
  set (L := (length g * 128)%nat).
  induction n as [|n IH]; intros x sum H; cbn [seq map smallLoop].
  - unfold xorAll. cbn. by rewrite N.lxor_0_r.
  - rewrite leafBytes_length. fold L.
    assert (leafBytes aes (traverse aes k0 cws (N.of_nat x)) g =
      map (fun i => bit2N (evalBit aes (k0 :: cws) g (N.of_nat (x * L) + N.of_nat i))) (seq 0 L)) as ->.
    { rewrite leafBytes_imap. fold L. apply map_ext. intros i. do 2 f_equal. lia. }
    pose proof (sumBytes_ok (evalBit aes (k0 :: cws) g) data L (N.of_nat (x * L)) 0 sum) as E.
    change (N.of_nat 0) with 0 in E. rewrite N.add_0_r in E. rewrite E by lia. clear E.
    replace (N.of_nat (x * L) + N.of_nat L) with (N.of_nat (S x * L)) by lia.
    rewrite IH by lia. f_equal. rewrite N.lxor_assoc. f_equal. cbn [concat]. rewrite map_app, xorAll_app. f_equal.
    rewrite map_map. f_equal. apply map_ext. intros i. f_equal. lia.
Qed.

Lemma laneSums_ok f data E idx L : forall n j0 sums, length sums = n ->
  N.of_nat ((j0 + n) * N.to_nat (2 ^ E) * L) <= N.of_nat (length data) -> idx < 2 ^ E ->
  exists sums', laneSums data (N.of_nat L) E idx (N.of_nat j0)
    (map (fun j => map (fun i => bit2N (f ((N.of_nat j * 2 ^ E + idx) * N.of_nat L + N.of_nat i))) (seq 0 L)) (seq j0 n)) sums = Some sums' /\
    length sums' = n /\
    xorAll sums' = N.lxor (xorAll sums) (xorAll (map (term f data)
      (concat (map (fun j => map (fun i => N.of_nat ((j * N.to_nat (2 ^ E) + N.to_nat idx) * L + i)) (seq 0 L)) (seq j0 n))))).
Proof.
  induction n as [|n IH]; intros j0 sums Hl H Hi; cbn [seq map laneSums].
  - destruct sums; [|done]. exists []. done.
  - destruct sums as [|s sums]; [done|]. injection Hl as Hl.
    set (P := (N.of_nat j0 * 2 ^ E + idx) * N.of_nat L).
    assert (N.shiftl (N.of_nat j0) E = N.of_nat j0 * 2 ^ E) as -> by apply N.shiftl_mul_pow2. fold P.
    assert (P + N.of_nat L <= N.of_nat (length data)) as HP.
    { etrans; [|exact H]. unfold P. set (e := 2 ^ E) in *.
      assert (N.of_nat j0 * e + idx + 1 <= N.of_nat (j0 + S n) * e) by nia.
      replace (N.of_nat ((j0 + S n) * N.to_nat e * L)) with (N.of_nat (j0 + S n) * e * N.of_nat L) by lia. nia. }
    pose proof (sumBytes_ok f data L P 0 s) as Es. change (N.of_nat 0) with 0 in Es. rewrite N.add_0_r in Es.
    rewrite Es by lia. clear Es.
    destruct (IH (S j0) sums Hl) as (sums' & E1 & E2 & E3); [|done|].
    { replace (S j0 + n)%nat with (j0 + S n)%nat by lia. done. }
    replace (N.of_nat j0 + 1) with (N.of_nat (S j0)) by lia. rewrite E1. eexists. split; [reflexivity|].
    split; [by cbn; rewrite E2|]. unfold xorAll in E3 |- *. cbn [foldr]. rewrite E3.
    cbn [concat]. rewrite map_app. fold (xorAll (map (term f data) (map (fun i => N.of_nat ((j0 * N.to_nat (2 ^ E) + N.to_nat idx) * L + i)) (seq 0 L) ++ []))).
    match goal with |- _ = N.lxor _ (foldr _ _ (?a ++ ?b)) => change (foldr N.lxor 0 (a ++ b)) with (xorAll (a ++ b)) end.
    rewrite xorAll_app. unfold xorAll.
    rewrite map_map.
    assert (map (fun i => term f data (P + N.of_nat i)) (seq 0 L) =
      map (fun x => term f data (N.of_nat ((j0 * N.to_nat (2 ^ E) + N.to_nat idx) * L + x))) (seq 0 L)) as ->.
    { apply map_ext. intros i. f_equal. unfold P. lia. }
    rewrite !N.lxor_assoc. f_equal. rewrite <- !N.lxor_assoc. f_equal. apply N.lxor_comm.
Qed.

Section big.
Context (aes : bool -> N -> N) (k0 : N) (cws g data : list N) (D : nat).
Hypothesis Hlen : (length cws = 3 + D)%nat.
Hypothesis HD : N.of_nat D < 2 ^ 64.
Hypothesis Hg : g ≠ [].

Definition roots3 : list (N * list N * list N) :=
  map (fun j => (traverse aes k0 (take 3 cws) (N.of_nat j), drop 3 cws, g)) (seq 0 8).
Definition lanes3 : list lane :=
  map (fun s => mkLane (s :: replicate D 0) (drop 3 cws) g) (map (fun x => traverse aes k0 (take 3 cws) (N.of_nat x)) (seq 0 8)).
Definition evBytes (x : N) : list N :=
  map (fun i => bit2N (evalBit aes (k0 :: cws) g (x * N.of_nat (length g * 128) + N.of_nat i))) (seq 0 (length g * 128)).

Lemma lanes3_good : GoodLanes aes D roots3 0 0 lanes3.
Proof using Hlen.
  clear HD. unfold GoodLanes, roots3, lanes3. rewrite map_map. apply Forall2_fmap_2, Forall_Forall2_diag, Forall_forall.
  intros j _. unfold GoodLane. cbn [lStack lCw lG fst snd length]. rewrite replicate_length, drop_length.
  split; [done|]. split; [apply take_ge; rewrite drop_length; lia|]. split; [lia|]. split; [done|].
  intros i Hi _. assert (i = 0%nat) as -> by lia. done.
Qed.

Lemma lanes3_bytes idx ls : idx < 2 ^ N.of_nat D -> GoodLanes aes D roots3 (N.of_nat D) idx ls ->
  mapM (laneLeaf aes D) ls = Some (map (fun j => evBytes (N.of_nat j * 2 ^ N.of_nat D + idx)) (seq 0 8)).
Proof using Hlen.
  clear HD. intros Hi H. rewrite (laneLeaves_ok _ _ _ _ _ H). f_equal. unfold roots3. rewrite map_map. apply map_ext. intros j.
  cbn [fst snd]. assert (D = length cws - 3)%nat as HDe by lia. rewrite HDe in Hi |- *.
  rewrite subtree_leaf by (done || lia). rewrite leafBytes_imap. unfold evBytes. apply map_ext. intros i. do 2 f_equal. lia.
Qed.

Lemma bigLoop_ok : N.of_nat (length data) = N.of_nat (8 * N.to_nat (2 ^ N.of_nat D) * (length g * 128)) ->
  forall n idx d ls sums, (idx + n = N.to_nat (2 ^ N.of_nat D))%nat -> length sums = 8%nat ->
  (n ≠ 0%nat -> exists d', d = N.of_nat d' /\ (d' <= D)%nat /\ GoodLanes aes D roots3 (N.of_nat d') (N.of_nat idx) ls) ->
  exists sums', bigLoop aes n data g (N.of_nat D) d (N.of_nat idx) ls sums = Done sums' /\
    xorAll sums' = N.lxor (xorAll sums) (xorAll (map (term (evalBit aes (k0 :: cws) g) data)
      (concat (map (fun idx => lanePositions 8 (N.to_nat (2 ^ N.of_nat D)) idx (length g * 128)) (seq idx n))))).
Proof using Hlen HD Hg.
  intros Hdata. induction n as [|n IH]; intros idx d ls sums Hn Hl Hgood; cbn [bigLoop].
  - replace (N.of_nat idx) with (2 ^ N.of_nat D) by lia. rewrite N.eqb_refl. exists sums. split; [done|].
    cbn. by rewrite N.lxor_0_r.
  - destruct (N.eqb_spec (N.of_nat idx) (2 ^ N.of_nat D)) as [|_]; [lia|].
    destruct (Hgood ltac:(done)) as (d' & -> & Hd' & HG).
    destruct (descend_ok aes D roots3 (N.of_nat idx) D d' ls Hd' ltac:(lia) HG) as (ls' & Ed & HG').
    rewrite Nat2N.id, Ed.
    destruct (Nat.eqb_spec (length g) 0) as [E|_]; [by apply nil_length_inv in E|].
    assert (N.of_nat idx < 2 ^ N.of_nat D) as Hidx by lia.
    rewrite (lanes3_bytes _ _ Hidx HG').
    destruct (laneSums_ok (evalBit aes (k0 :: cws) g) data (N.of_nat D) (N.of_nat idx) (length g * 128) 8 0 sums Hl) as (sums' & Es & Ls & Hs);
      [by rewrite Hdata|done|].
    unfold evBytes.
    replace (N.of_nat (length g) * 128) with (N.of_nat (length g * 128)) by lia.
    change (N.of_nat 0) with 0 in Es. rewrite Es. replace (N.of_nat idx + 1) with (N.of_nat (S idx)) by lia.
    destruct (IH (S idx) (ascend (N.of_nat D) (N.of_nat idx)) ls' sums') as (sums'' & E2 & H2); [lia|done| |].
    { intros Hn0. destruct (GoodLanes_next aes D roots3 (N.of_nat idx) ls') as (d2 & E2 & H2 & HG2); [lia|done|done|].
      exists d2. replace (N.of_nat (S idx)) with (N.of_nat idx + 1) by lia. done. }
    exists sums''. split; [done|]. rewrite H2, Hs. rewrite N.lxor_assoc. f_equal.
    change (seq idx (S n)) with (idx :: seq (S idx) n). rewrite map_cons, concat_cons.
    rewrite map_app, xorAll_app. f_equal. unfold lanePositions. by rewrite Nat2N.id.
Qed.
End big.

Lemma fold_xor l : forall s, fold_left N.lxor l s = N.lxor s (xorAll l).
Proof.
  induction l as [|x l IH]; intros s; cbn; [by rewrite N.lxor_0_r|]. rewrite IH. unfold xorAll. by rewrite N.lxor_assoc.
Qed.

Lemma fullDomain_ok aes data k0 cws g : g ≠ [] -> N.of_nat (length cws) < 2 ^ 64 ->
  fullDomain aes data (k0 :: cws) g =
  if N.of_nat (length data) =? domainSize (length cws) (length g)
  then Done (selectXor (evalBit aes (k0 :: cws) g) data) else Thrown 0.
Proof.
  intros Hg H64. unfold fullDomain, domainSize.
  destruct (N.eqb_spec (N.of_nat (length data)) (2 ^ N.of_nat (length cws) * N.of_nat (length g) * 128)) as [E|]; [|done].
  rewrite selectXor_positions. destruct (Nat.ltb_spec (length cws) 3) as [Hs|Hb].
  - rewrite Nat.min_r by lia. destruct (topTree aes k0 cws (length cws)) as (r & -> & ->); [done|].
    rewrite take_ge by done.
    assert (length data = 2 ^ length cws * (length g * 128))%nat as Ed.
    { apply Nat2N.inj. rewrite E, !Nat2N.inj_mul, Nat2N.inj_pow. lia. }
    pose proof (smallLoop_ok aes data k0 cws g (2 ^ length cws) 0 0) as Hsm. rewrite Nat.mul_0_l in Hsm.
    change (N.of_nat 0) with 0 in Hsm. rewrite Hsm by lia. rewrite N.lxor_0_l. f_equal.
    apply xorAll_perm, fmap_Permutation. rewrite Ed.
    pose proof (treePositions_perm (2 ^ length cws) 1 (length g * 128)) as P. rewrite Nat.mul_1_r in P.
    rewrite <- P. unfold treePositions. cbn [seq map concat]. rewrite app_nil_r. unfold lanePositions.
    match goal with |- ?a ≡ₚ ?b => assert (a = b) as ->; [|done] end.
    f_equal. apply map_ext. intros x. apply map_ext. intros i. lia.
  - rewrite Nat.min_l by lia. destruct (topTree aes k0 cws 3) as (r & -> & ->); [done|].
    set (D := (length cws - 3)%nat). assert (length cws = 3 + D)%nat as Hlen by (unfold D; lia).
    change (seq 0 (2 ^ 3)) with (seq 0 8). change (map (fun s => _) _) with (lanes3 aes k0 cws g D).
    assert (N.of_nat (length data) = N.of_nat (8 * N.to_nat (2 ^ N.of_nat D) * (length g * 128))) as Ed.
    { rewrite E, Hlen. rewrite Nat2N.inj_add, N.pow_add_r. change (2 ^ N.of_nat 3) with 8. lia. }
    destruct (bigLoop_ok aes k0 cws g data D Hlen ltac:(lia) Hg Ed (N.to_nat (2 ^ N.of_nat D)) 0 0 (lanes3 aes k0 cws g D) (replicate 8 0))
      as (sums & Es & Hs); [lia|done| |].
    { intros _. exists 0%nat. split; [done|]. split; [lia|]. by apply lanes3_good. }
    change (N.of_nat 0) with 0 in Es. rewrite Es. rewrite fold_xor, N.lxor_0_l, Hs.
    change (xorAll (replicate 8 0)) with 0. rewrite N.lxor_0_l. f_equal.
    apply xorAll_perm, fmap_Permutation. rewrite Ed. apply treePositions_perm.
Qed.

(** ** PIR *)

Lemma selectXor_xor f0 f1 data :
  N.lxor (selectXor f0 data) (selectXor f1 data) = selectXor (fun p => xorb (f0 p) (f1 p)) data.
Proof.
  unfold selectXor. assert (forall n, N.lxor
      (xorAll (imap (fun p x => if f0 (N.of_nat (n + p)) then x else 0) data))
      (xorAll (imap (fun p x => if f1 (N.of_nat (n + p)) then x else 0) data))
    = xorAll (imap (fun p x => if xorb (f0 (N.of_nat (n + p))) (f1 (N.of_nat (n + p))) then x else 0) data)) as H; [|apply (H 0%nat)].
  induction data as [|x data IH]; intros n; [done|]. rewrite !imap_cons. unfold xorAll. cbn [foldr].
  specialize (IH (S n)). unfold xorAll in IH.
  assert (forall (F : N -> bool), imap ((fun (p : nat) y => if F (N.of_nat (n + p)) then y else 0) ∘ S) data
    = imap (fun p y => if F (N.of_nat (S n + p)) then y else 0) data) as EF.
  { intros F. apply imap_ext. intros i y _. cbn. by replace (n + S i)%nat with (S (n + i)) by lia. }
  rewrite (EF f0), (EF f1), (EF (fun p => xorb (f0 p) (f1 p))). rewrite <- IH.
  set (A := foldr _ _ (imap _ _)). set (B := foldr _ _ (imap _ _)).
  assert (forall a b, N.lxor (N.lxor a A) (N.lxor b B) = N.lxor (N.lxor a b) (N.lxor A B)) as R.
  { intros a b. rewrite !N.lxor_assoc. f_equal. rewrite <- !N.lxor_assoc. f_equal. apply N.lxor_comm. }
  rewrite R. f_equal. destruct (f0 _), (f1 _); cbn; rewrite ?N.lxor_nilpotent, ?N.lxor_0_l, ?N.lxor_0_r; done.
Qed.

Lemma selectXor_point f data idx x : data !! N.to_nat idx = Some x ->
  (forall p, p < N.of_nat (length data) -> f p = (p =? idx)) -> selectXor f data = x.
Proof.
  unfold selectXor. revert f idx. induction data as [|y data IH]; intros f idx Hx Hf; [done|].
  rewrite imap_cons. unfold xorAll. cbn [foldr].
  destruct (N.to_nat idx) as [|i] eqn:Ei.
  - injection Hx as ->. rewrite Hf by (cbn; lia). destruct (N.eqb_spec (N.of_nat 0) idx) as [_|]; [|lia].
    assert (foldr N.lxor 0 (imap ((fun (p : nat) (x0 : N) => if f (N.of_nat p) then x0 else 0) ∘ S) data) = 0) as ->; [|by rewrite N.lxor_0_r].
    assert (forall n, (1 <= n)%nat -> (n + length data <= S (length data))%nat -> foldr N.lxor 0 (imap (fun p x0 => if f (N.of_nat (n + p)) then x0 else 0) data) = 0) as Hz.
    { assert (forall p, (1 <= p)%nat -> (p < S (length data))%nat -> f (N.of_nat p) = false) as Hf0.
      { intros p Hp Hp'. rewrite Hf by (cbn; lia). lia. }
      clear - Hf0. intros n Hn Hn'. assert (forall p, (n <= p)%nat -> (p < n + length data)%nat -> f (N.of_nat p) = false) as H by (intros; apply Hf0; lia).
      clear Hf0 Hn Hn'. revert n H. induction data as [|y data IH]; intros n H; [done|]. rewrite imap_cons. cbn [foldr].
      rewrite H by (cbn; lia). rewrite N.lxor_0_l. rewrite <- (IH (S n)) at 2 by (intros; apply H; cbn; lia). f_equal. apply imap_ext. intros i z _. cbn.
      by replace (n + S i)%nat with (S (n + i)) by lia. }
    apply (Hz 1%nat); lia.
  - rewrite Hf by (cbn; lia). destruct (N.eqb_spec (N.of_nat 0) idx) as [|_]; [lia|]. rewrite N.lxor_0_l.
    specialize (IH (fun p => f (p + 1)) (N.of_nat i)). rewrite Nat2N.id in IH. rewrite <- IH; [|done|].
    + unfold xorAll. f_equal. apply imap_ext. intros j z _. cbn. by replace (N.of_nat j + 1) with (N.of_nat (S j)) by lia.
    + intros p Hp. rewrite Hf by (cbn; lia). lia.
Qed.

Lemma query_ok aes prng depth gs data idx seed x : (0 < gs)%nat -> N.of_nat depth < 2 ^ 64 ->
  N.of_nat (length data) = domainSize depth gs -> data !! N.to_nat idx = Some x ->
  query aes prng depth gs data idx seed = Done x.
Proof.
  intros Hgs H64 Hd Hx. unfold query.
  destruct (keyGen_ok aes prng depth gs idx seed Hgs) as (s0 & s1 & cws & g & -> & Lc & Lg & _ & Hev).
  assert (g ≠ []) as Hg by (intros ->; cbn in Lg; lia).
  rewrite !fullDomain_ok by (done || by rewrite Lc). rewrite Lc, Lg, Hd, N.eqb_refl. f_equal.
  rewrite selectXor_xor. apply (selectXor_point _ _ idx x Hx).
  intros p Hp. apply lookup_lt_Some in Hx. destruct (Hev ltac:(lia) p ltac:(lia)) as (b0 & b1 & E0 & E1 & E).
  unfold evalBit. by rewrite E0, E1.
Qed.
