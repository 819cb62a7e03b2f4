(** Proofs about the masks of items outside the receiver's set in the Bloom-filter protocols. *)
From Verif Require Import Base MaskHide_Spec.

(** XOR of the values at the positions. *)
Definition xorOf (l : list N) (ps : list nat) : N := foldr (fun p a => N.lxor (default 0 (l !! p)) a) 0 ps.

Lemma lxor_swap a b c : N.lxor a (N.lxor b c) = N.lxor b (N.lxor a c).
Proof. rewrite <- !N.lxor_assoc, (N.lxor_comm a b). done. Qed.
Lemma xor_put l p v ps : (p < length l)%nat ->
  xorOf (<[p:=v]> l) ps = N.lxor (if Nat.odd (count_occ Nat.eq_dec ps p) then v else 0) (xorOf (<[p:=0]> l) ps).
Proof.
  intros Hp. induction ps as [|q ps IH]; [done|]. cbn [xorOf foldr count_occ]. change (foldr _ 0 ps) with (xorOf (<[p:=v]> l) ps) at 1. change (foldr _ 0 ps) with (xorOf (<[p:=0]> l) ps).
  rewrite IH. destruct (Nat.eq_dec q p) as [->|Hq].
  - rewrite !list_lookup_insert by done. cbn [default]. change (default 0 (Some v)) with v. change (default 0 (Some 0)) with 0. rewrite N.lxor_0_l, Nat.odd_succ, <- Nat.negb_odd.
    destruct (Nat.odd _); cbn [negb]; rewrite ?N.lxor_0_l; [|done]. by rewrite <- N.lxor_assoc, N.lxor_nilpotent, N.lxor_0_l.
  - rewrite !list_lookup_insert_ne by done. apply lxor_swap.
Qed.
Lemma xor_put_even l p v ps : (p < length l)%nat -> ¬ oddIn p ps -> xorOf (<[p:=v]> l) ps = xorOf (<[p:=0]> l) ps.
Proof. intros Hp Ho. rewrite xor_put by done. unfold oddIn in Ho. destruct (Nat.odd _); [done|]. apply N.lxor_0_l. Qed.
Lemma xor_put_odd l p v ps : (p < length l)%nat -> oddIn p ps -> xorOf (<[p:=v]> l) ps = N.lxor v (xorOf (<[p:=0]> l) ps).
Proof. intros Hp Ho. rewrite xor_put by done. unfold oddIn in Ho. by rewrite Ho. Qed.
Lemma xor_put_none l p v ps : (p < length l)%nat -> ¬ oddIn p ps -> xorOf (<[p:=v]> l) ps = xorOf l ps.
Proof.
  intros Hp Ho. destruct (lookup_lt_is_Some_2 l p Hp) as [w Hw]. rewrite xor_put_even by done. rewrite <- (list_insert_id l p w Hw) at 2. symmetry. by apply xor_put_even.
Qed.
Lemma putAt_cons {A} p ps (x : A) xs l : putAt (p :: ps) (x :: xs) l = putAt ps xs (<[p:=x]> l).
Proof. done. Qed.
Lemma putAt_length {A} ps (xs l : list A) : length (putAt ps xs l) = length l.
Proof.
  revert xs l. induction ps as [|p ps IH]; intros [|x xs] l; [done..|]. rewrite putAt_cons, IH. apply insert_length.
Qed.
Lemma putAt_other {A} ps (xs l : list A) q : q ∉ ps -> putAt ps xs l !! q = l !! q.
Proof.
  revert xs l. induction ps as [|p ps IH]; intros [|x xs] l Hq; [done..|]. apply not_elem_of_cons in Hq as [Hq1 Hq2]. rewrite putAt_cons, IH by done. by rewrite list_lookup_insert_ne.
Qed.
Lemma xor_putAt_none ps : forall xs l qs, Forall (fun p => (p < length l)%nat) ps -> (forall p, p ∈ ps -> ¬ oddIn p qs) -> xorOf (putAt ps xs l) qs = xorOf l qs.
Proof.
  induction ps as [|p ps IH]; intros [|x xs] l qs Hl Ho; [done..|]. apply Forall_cons in Hl as [Hp Hl]. rewrite putAt_cons, IH.
  - apply xor_put_none; [done|]. apply Ho. by left.
  - by rewrite insert_length.
  - intros q Hq. apply Ho. by right.
Qed.
Lemma lxor_solve a b c : N.lxor a b = c <-> a = N.lxor c b.
Proof.
  split; [intros <-|intros ->]; by rewrite N.lxor_assoc, N.lxor_nilpotent, N.lxor_0_r.
Qed.
Lemma block_xor a b : isBlock a -> isBlock b -> isBlock (N.lxor a b).
Proof.
  unfold isBlock. intros Ha Hb. destruct (decide (N.lxor a b = 0)) as [->|H]; [done|]. apply N.log2_lt_pow2; [lia|].
  eapply N.le_lt_trans; [apply N.log2_lxor|]. apply N.max_lub_lt.
  - destruct (decide (a = 0)) as [->|]; [done|]. apply N.log2_lt_pow2; [lia|done].
  - destruct (decide (b = 0)) as [->|]; [done|]. apply N.log2_lt_pow2; [lia|done].
Qed.
Lemma block_xorOf l ps : Forall isBlock l -> isBlock (xorOf l ps).
Proof.
  intros H. induction ps as [|p ps IH]; [done|]. cbn [xorOf foldr]. apply block_xor; [|exact IH]. destruct (l !! p) as [v|] eqn:E; [|done].
  rewrite Forall_forall in H. apply H. by eapply elem_of_list_lookup_2.
Qed.

(** The masks of the items take every combination of values, each for exactly one choice of the unknown messages. *)
Lemma masks_uniform {A} (pos : A -> list nat) known U : forall ps l vs, freshPositions pos known U ps -> Forall (fun p => (p < length l)%nat) ps -> length vs = length U ->
  exists xs, length xs = length ps /\ (Forall isBlock l -> Forall isBlock vs -> Forall isBlock xs) /\
    forall xs', length xs' = length ps -> map (fun y => xorOf (putAt ps xs' l) (pos y)) U = vs <-> xs' = xs.
Proof.
  induction U as [|y U IH]; intros ps l vs [Hlen Hf] Hl Hv.
  - destruct ps; [|done]. destruct vs; [|done]. exists []. split; [done|]. split; [done|]. intros [|? ?] H; done.
  - destruct ps as [|p ps]; [done|]. destruct vs as [|v vs]; [done|]. apply Forall_cons in Hl as [Hp Hl]. cbn in Hlen, Hv. injection Hlen as Hlen. injection Hv as Hv.
    destruct (Hf 0%nat p y eq_refl eq_refl) as (Hodd & _ & _).
    assert (freshPositions pos known U ps) as Hf'.
    { split; [done|]. intros i q z Hq Hz. destruct (Hf (S i) q z Hq Hz) as (H1 & H2 & H3). split; [done|]. split; [done|]. intros j y' Hj Hy'. apply (H3 (S j)); [lia|done]. }
    assert (forall q, q ∈ ps -> ¬ oddIn q (pos y)) as Hy.
    { intros q Hq. apply elem_of_list_lookup in Hq as [i Hi]. destruct (lookup_lt_is_Some_2 U i) as [z Hz]; [apply lookup_lt_Some in Hi; lia|]. destruct (Hf (S i) q z Hi Hz) as (_ & _ & H). apply (H 0%nat); [lia|done]. }
    set (x := N.lxor v (xorOf (<[p:=0]> l) (pos y))).
    destruct (IH ps (<[p:=x]> l) vs Hf') as (xs & Hxs & Hb & Hu); [by rewrite insert_length|done|]. exists (x :: xs). split; [cbn; lia|]. split.
    { intros Bl Bv. apply Forall_cons in Bv as [Bv1 Bv2]. assert (isBlock x) as Bx by (apply block_xor; [done|]; apply block_xorOf, Forall_insert; done). constructor; [done|]. apply Hb; [by apply Forall_insert|done]. }
    intros [|x' xs'] Hl'; [done|]. cbn in Hl'. injection Hl' as Hl'. cbn [map]. rewrite putAt_cons.
    assert (xorOf (putAt ps xs' (<[p:=x']> l)) (pos y) = v <-> x' = x) as E1.
    { rewrite xor_putAt_none; [|by rewrite insert_length|done]. rewrite xor_put_odd by done. apply lxor_solve. }
    split.
    + intros [= E2 E3]. apply E1 in E2. subst x'. f_equal. by apply Hu.
    + intros [= E2 E3]. subst x'. f_equal; [by apply E1|by apply Hu].
Qed.

(** Single updates of the OT messages. *)
Definition other1 (choices : list bool) (p : nat) (x : N) (l : list (N * N)) : list (N * N) :=
  alter (fun m : N * N => if default false (choices !! p) then (x, m.2) else (m.1, x)) p l.
Lemma putOther_cons choices p ps x xs msgs : putOther choices (p :: ps) (x :: xs) msgs = putOther choices ps xs (other1 choices p x msgs).
Proof. done. Qed.
Lemma putOther_length choices ps : forall xs msgs, length (putOther choices ps xs msgs) = length msgs.
Proof. induction ps as [|p ps IH]; intros [|x xs] msgs; [done..|]. rewrite putOther_cons, IH. apply alter_length. Qed.
Lemma chosen_other1 choices p x l : chosen choices (other1 choices p x l) = chosen choices l.
Proof.
  unfold chosen. apply list_eq. intros q. rewrite !lookup_zip_with. unfold other1. destruct (decide (p = q)) as [->|Hq]; [|by rewrite list_lookup_alter_ne].
  rewrite list_lookup_alter. destruct (l !! q) as [[a b]|]; [|done]. cbn. by destruct (choices !! q) as [[]|].
Qed.
Lemma chosen_put choices ps : forall xs msgs, chosen choices (putOther choices ps xs msgs) = chosen choices msgs.
Proof. induction ps as [|p ps IH]; intros [|x xs] msgs; [done..|]. rewrite putOther_cons, IH. apply chosen_other1. Qed.
Definition picked (corr : list bool) (msgs : list (N * N)) : list N := zip_with (fun m (c : bool) => if c then m.1 else m.2) msgs corr.
Lemma picked_put corr choices ps : forall xs msgs, (forall p, p ∈ ps -> exists c, corr !! p = Some c /\ choices !! p = Some c) ->
  picked corr (putOther choices ps xs msgs) = putAt ps xs (picked corr msgs).
Proof.
  induction ps as [|p ps IH]; intros [|x xs] msgs H; [done..|]. rewrite putOther_cons, putAt_cons, IH by (intros q Hq; apply H; by right). f_equal.
  destruct (H p ltac:(by left)) as (c & Hc & Hch). unfold picked. apply list_eq. intros q. rewrite lookup_zip_with. unfold other1. destruct (decide (p = q)) as [->|Hq].
  - rewrite list_lookup_alter, Hc, Hch. destruct (msgs !! q) as [[a b]|] eqn:E; cbn.
    + rewrite list_lookup_insert; [by destruct c|]. rewrite zip_with_length. apply lookup_lt_Some in E, Hc. lia.
    + symmetry. apply lookup_ge_None. rewrite insert_length, zip_with_length. apply lookup_ge_None in E. lia.
  - rewrite list_lookup_alter_ne, list_lookup_insert_ne, lookup_zip_with by done. done.
Qed.
Lemma putSecond_cons p ps x xs msgs : putSecond (p :: ps) (x :: xs) msgs = putSecond ps xs (alter (fun m : N * N => (m.1, x)) p msgs).
Proof. done. Qed.
Lemma putSecond_length ps : forall xs msgs, length (putSecond ps xs msgs) = length msgs.
Proof. induction ps as [|p ps IH]; intros [|x xs] msgs; [done..|]. rewrite putSecond_cons, IH. apply alter_length. Qed.
Lemma second_put ps : forall xs msgs, map snd (putSecond ps xs msgs) = putAt ps xs (map snd msgs).
Proof.
  induction ps as [|p ps IH]; intros [|x xs] msgs; [done..|]. rewrite putSecond_cons, putAt_cons, IH. f_equal. apply list_eq. intros q. rewrite list_lookup_fmap.
  destruct (decide (p = q)) as [->|Hq].
  - rewrite list_lookup_alter. destruct (msgs !! q) as [m|] eqn:E; cbn.
    + rewrite list_lookup_insert; [done|]. rewrite map_length. by apply lookup_lt_Some in E.
    + symmetry. apply lookup_ge_None. rewrite insert_length, map_length. by apply lookup_ge_None in E.
  - rewrite list_lookup_alter_ne, list_lookup_insert_ne, list_lookup_fmap by done. done.
Qed.
Lemma first_put ps : forall xs msgs, map fst (putSecond ps xs msgs) = map fst msgs.
Proof.
  induction ps as [|p ps IH]; intros [|x xs] msgs; [done..|]. rewrite putSecond_cons, IH. apply list_eq. intros q. rewrite !list_lookup_fmap.
  destruct (decide (p = q)) as [->|Hq]; [rewrite list_lookup_alter; by destruct (msgs !! q)|by rewrite list_lookup_alter_ne].
Qed.
Lemma not_odd p ps : p ∉ ps -> ¬ oddIn p ps.
Proof. intros H. unfold oddIn. rewrite (proj1 (count_occ_not_In Nat.eq_dec ps p)); [done|]. intros Hin. apply H. by apply elem_of_list_In. Qed.
Lemma odd_in p ps : oddIn p ps -> p ∈ ps.
Proof. intros H. destruct (decide (p ∈ ps)) as [|Hn]; [done|]. exfalso. by apply (not_odd p ps Hn). Qed.
