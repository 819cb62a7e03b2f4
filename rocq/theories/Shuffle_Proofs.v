(** Proofs about the shuffles. *)
From Verif Require Import Base Shuffle_Model.

Lemma swapPos_perm l i j : (i < length l)%nat -> (j < length l)%nat ->
  exists l', swapPos l i j = Some l' /\ l' ≡ₚ l /\ length l' = length l.
Proof.
  intros [x Hx]%lookup_lt_is_Some [y Hy]%lookup_lt_is_Some. unfold swapPos. rewrite Hx, Hy.
  eexists. split; [done|]. split; [|by rewrite !insert_length].
  destruct (decide (i = j)) as [->|Hne].
  - assert (x = y) as -> by congruence. by rewrite list_insert_insert, list_insert_id.
  - symmetry. 
    assert (<[i := y]> l !! j = Some y) as Hj by (by rewrite list_lookup_insert_ne).
    assert (forall (v : list N) a o w, v !! a = Some o -> o :: <[a := w]> v ≡ₚ w :: v) as X.
    { intros v a o w Ha. rewrite (insert_take_drop v a w) by eauto using lookup_lt_Some.
      rewrite <- (take_drop_middle v a o Ha) at 3. permN. }
    pose proof (X _ _ _ y Hx) as X1. pose proof (X _ _ _ x Hj) as X2. permN.
Qed.

Section shuffle.
Context {G : Type} (blk : G -> N * G) (fresh : N -> G) (std : G -> list N -> list N * G).
Context (Hstd : forall g l, (std g l).1 ≡ₚ l).

Lemma mergeSteps_ok b n : forall i l low mid, (low + n <= mid)%nat -> (mid + n <= length l)%nat ->
  exists l' mid', mergeSteps b i n l low mid = Some (l', (low + n)%nat, mid') /\
    l' ≡ₚ l /\ length l' = length l /\ (mid <= mid' <= mid + n)%nat.
Proof.
  induction n as [|n IH]; intros i l low mid H1 H2; cbn [mergeSteps].
  - exists l, mid. rewrite Nat.add_0_r. split_and!; try done; lia.
  - destruct (expandedBit b i).
    + destruct (swapPos_perm l low mid) as (l1 & -> & P1 & L1); [lia|lia|].
      destruct (IH (S i) l1 (S low) (S mid)) as (l' & mid' & E & P & L & B); [lia|lia|].
      exists l', mid'. rewrite E. split; [f_equal; f_equal; f_equal; lia|]. split; [by rewrite P|].
      split; [lia|lia].
    + destruct (IH (S i) l (S low) mid) as (l' & mid' & E & P & L & B); [lia|lia|].
      exists l', mid'. rewrite E. split; [f_equal; f_equal; f_equal; lia|]. split; [done|].
      split; [lia|lia].
Qed.

Lemma mergeLoop_ok fuel : forall g l low mid, (low <= mid <= length l)%nat -> (length l - low <= fuel)%nat ->
  exists l' low' g', mergeLoop blk fuel g l low mid = Done (l', low', g') /\ l' ≡ₚ l /\ (low' <= length l)%nat.
Proof.
  induction fuel as [|fuel IH]; intros g l low mid H1 H2; cbn [mergeLoop].
  - destruct (Nat.eqb_spec low mid); cbn [orb]; [exists l, low, g; split_and!; try done; lia|].
    destruct (Nat.eqb_spec mid (length l)); cbn [orb]; [exists l, low, g; split_and!; try done; lia|]. lia.
  - destruct (Nat.eqb_spec low mid); cbn [orb]; [exists l, low, g; split_and!; try done; lia|].
    destruct (Nat.eqb_spec mid (length l)); cbn [orb]; [exists l, low, g; split_and!; try done; lia|].
    destruct (blk g) as [b g1].
    cbv zeta. set (n1 := Nat.min 128 (Nat.min (mid - low) (length l - mid))).
    destruct (mergeSteps_ok b n1 0 l low mid) as (l1 & mid1 & -> & P & L & B); [lia|lia|].
    destruct (IH g1 l1 (low + n1)%nat mid1) as (l' & low' & g' & -> & P' & B'); [lia|lia|].
    exists l', low', g'. split; [done|]. split; [by rewrite P'|]. lia.
Qed.

Lemma mergeShuffle_ok k fuel : 2 <= k -> forall g l, (length l <= fuel)%nat ->
  exists l' g', mergeShuffle blk fresh std k fuel g l = Done (l', g') /\ l' ≡ₚ l.
Proof.
  intros Hk. induction fuel as [|fuel IH]; intros g l L; cbn [mergeShuffle].
  - rewrite (proj2 (N.ltb_lt _ _)) by lia. unfold shuffle. pose proof (Hstd g l) as P.
    destruct (std g l) as [l' g']. eauto.
  - destruct (N.ltb_spec (N.of_nat (length l)) k) as [Hlt|Hge].
    { unfold shuffle. pose proof (Hstd g l) as P. destruct (std g l) as [l' g']. eauto. }
    destruct (blk g) as [b g0]. set (m := (length l / 2)%nat).
    assert (m < length l)%nat as Hm by (apply Nat.div_lt; lia).
    assert (0 < m)%nat as Hm0 by (apply Nat.div_str_pos; lia).
    destruct (IH (fresh b) (take m l)) as (l1 & g1 & -> & P1); [rewrite take_length; lia|].
    destruct (IH g0 (drop m l)) as (l2 & g2 & -> & P2); [rewrite drop_length; lia|].
    pose proof (Permutation_length P1) as L1. rewrite take_length in L1.
    pose proof (Permutation_length P2) as L2. rewrite drop_length in L2.
    destruct (mergeLoop_ok (length l) g2 (l1 ++ l2) 0 m) as (l' & low & g3 & -> & P3 & B3);
      [rewrite app_length; lia|rewrite app_length; lia|].
    unfold shuffle. pose proof (Hstd g3 (drop low l')) as P4.
    destruct (std g3 (drop low l')) as [rest g4]. simpl in P4.
    eexists _, _. split; [done|]. rewrite P4, take_drop, P3, P1, P2, take_drop. done.
Qed.

Lemma parallel_noop k l t nt : 2 <= k -> 0 < nt -> t <= nt ->
  parallelShuffle blk fresh std k l t nt = Done l.
Proof.
  intros Hk Hnt Ht. unfold parallelShuffle. rewrite (proj2 (N.eqb_neq nt 0)) by lia.
  set (s := N.to_nat (N.of_nat (length l) * t / nt)).
  assert (s <= length l)%nat as Hs.
  { unfold s. assert (N.of_nat (length l) * t / nt <= N.of_nat (length l)); [|lia].
    apply N.div_le_upper_bound; [lia|]. nia. }
  rewrite (proj2 (Nat.ltb_ge _ _)) by done. rewrite Nat.sub_diag. 
  destruct (mergeShuffle_ok k (length l) Hk (fresh t) (take 0 (drop s l))) as (l' & g' & -> & P);
    [rewrite take_length; lia|].
  rewrite firstn_O in P. symmetry in P. apply Permutation_nil in P. subst l'. simpl. by rewrite take_drop.
Qed.
End shuffle.
