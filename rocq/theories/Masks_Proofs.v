From Verif Require Import Base BinProb_Spec BinProb_Proofs Masks_Spec.
Local Open Scope nat_scope.

(** The values that the first mask is compared with, and the comparisons of the others. *)
Definition heads (cs : list comparison) : list nat := concat (map (fun c => match c.1 with O => [c.2] | S _ => [] end) cs).
Definition tails (cs : list comparison) : list comparison := concat (map (fun c => match c.1 with O => [] | S j => [(j, c.2)] end) cs).
Lemma heads_tails cs : length (heads cs) + length (tails cs) = length cs.
Proof. unfold heads, tails. induction cs as [|[[|j] v] cs IH]; [done| |]; cbn in *; lia. Qed.
Lemma elem_heads cs v : v ∈ heads cs <-> (0, v) ∈ cs.
Proof.
  unfold heads. induction cs as [|[[|j] w] cs IH]; cbn [map concat fst snd app].
  - split; intros H; by apply elem_of_nil in H.
  - rewrite !elem_of_cons, IH. split; (intros [H|H]; [left|by right]); congruence.
  - rewrite elem_of_cons, IH. split; [by right|]. intros [H|H]; [done|done].
Qed.
Lemma elem_tails cs j v : (j, v) ∈ tails cs <-> (S j, v) ∈ cs.
Proof.
  unfold tails. induction cs as [|[[|i] w] cs IH]; cbn [map concat fst snd app].
  - split; intros H; by apply elem_of_nil in H.
  - rewrite elem_of_cons, IH. split; [by right|]. intros [H|H]; [done|done].
  - rewrite !elem_of_cons, IH. split; (intros [H|H]; [left|by right]); congruence.
Qed.
Lemma heads_NoDup cs : NoDup cs -> NoDup (heads cs).
Proof.
  intros H. induction H as [|[[|j] v] cs Hc H IH]; [constructor| |done].
  change (NoDup (v :: heads cs)). constructor; [|done]. by rewrite elem_heads.
Qed.
Lemma tails_NoDup cs : NoDup cs -> NoDup (tails cs).
Proof.
  intros H. induction H as [|[[|j] v] cs Hc H IH]; [constructor|done|].
  change (NoDup ((j, v) :: tails cs)). constructor; [|done]. by rewrite elem_tails.
Qed.
Lemma matches_cons cs a f : matches cs (a :: f) = existsb (Nat.eqb a) (heads cs) || matches (tails cs) f.
Proof.
  unfold matches, heads, tails. induction cs as [|[[|j] v] cs IH]; [done| |]; cbn [map concat existsb fst snd app].
  - rewrite IH. cbn [lookup list_lookup]. apply orb_assoc.
  - rewrite IH. cbn [lookup list_lookup]. rewrite !orb_assoc. f_equal. apply orb_comm.
Qed.
Lemma matches_nil cs : matches cs [] = false.
Proof. unfold matches. induction cs as [|[j v] cs IH]; done. Qed.

(** ** Lists without a match *)
Definition free (q m : nat) (cs : list comparison) : N := cnt (fun f => negb (matches cs f)) (placements q m).
Lemma cnt_split {A} (p : A -> bool) l : (cnt p l + cnt (fun x => negb (p x)) l = N.of_nat (length l))%N.
Proof. induction l as [|a l IH]; [done|]. rewrite !cnt_cons. cbn [length]. destruct (p a); cbn [negb]; lia. Qed.
Lemma match_free q m cs : (matchCount q m cs + free q m cs = N.of_nat q ^ N.of_nat m)%N.
Proof.
  unfold matchCount, free. change (N.of_nat (length (List.filter ?p ?l))) with (cnt p l). rewrite cnt_split, placements_length.
  induction m as [|m IH]; [done|]. rewrite Nat2N.inj_succ, N.pow_succ_r'. cbn [Nat.pow]. lia.
Qed.
Lemma free_0 q cs : free q 0 cs = 1%N.
Proof. unfold free. cbn [placements]. rewrite cnt_cons, matches_nil. done. Qed.
Definition outside (q : nat) (vs : list nat) : N := cnt (fun a => negb (existsb (Nat.eqb a) vs)) (seq 0 q).
Lemma free_S q m cs : (free q (S m) cs = outside q (heads cs) * free q m (tails cs))%N.
Proof.
  unfold free at 1, outside. cbn [placements]. generalize (seq 0 q). intros l. induction l as [|a l IH]; [done|].
  cbn [map concat]. rewrite cnt_app, cnt_map, IH, cnt_cons.
  rewrite (cnt_ext _ (fun f => negb (existsb (Nat.eqb a) (heads cs)) && negb (matches (tails cs) f))).
  2: { intros f. by rewrite matches_cons, negb_orb. }
  destruct (existsb (Nat.eqb a) (heads cs)); cbn [negb andb].
  - assert (cnt (fun _ : list nat => false) (placements q m) = 0%N) as ->; [|lia]. clear. induction (placements q m) as [|x l' IHl]; [done|]. rewrite cnt_cons, IHl. done.
  - fold (free q m (tails cs)). lia.
Qed.
Lemma outside_ge q vs : (N.of_nat q - N.of_nat (length vs) <= outside q vs)%N.
Proof.
  unfold outside. assert (forall l, NoDup l -> (N.of_nat (length l) <= cnt (fun a => negb (existsb (Nat.eqb a) vs)) l + N.of_nat (length vs))%N) as H.
  { intros l Hl. pose proof (cnt_split (fun a => existsb (Nat.eqb a) vs) l) as E. cut (cnt (fun a => existsb (Nat.eqb a) vs) l <= N.of_nat (length vs))%N; [lia|].
    unfold cnt. cut (length (List.filter (fun a => existsb (Nat.eqb a) vs) l) <= length vs); [lia|]. apply List.NoDup_incl_length.
    - apply List.NoDup_filter. by apply NoDup_ListNoDup.
    - intros x [_ Hx]%filter_In. apply existsb_exists in Hx as (y & Hy & ->%Nat.eqb_eq). done. }
  specialize (H (seq 0 q) (NoDup_seq _ _)). rewrite seq_length in H. lia.
Qed.
Lemma outside_eq q vs : NoDup vs -> Forall (fun v => v < q) vs -> outside q vs = (N.of_nat q - N.of_nat (length vs))%N.
Proof.
  intros Hv Hq. apply N.le_antisymm; [|apply outside_ge]. unfold outside.
  pose proof (cnt_split (fun a => existsb (Nat.eqb a) vs) (seq 0 q)) as E. rewrite seq_length in E.
  cut (N.of_nat (length vs) <= cnt (fun a => existsb (Nat.eqb a) vs) (seq 0 q))%N; [lia|].
  unfold cnt. cut (length vs <= length (List.filter (fun a => existsb (Nat.eqb a) vs) (seq 0 q))); [lia|]. apply List.NoDup_incl_length; [by apply NoDup_ListNoDup|].
  intros x Hx. apply filter_In. split.
  - apply in_seq. rewrite Forall_forall in Hq. specialize (Hq x). rewrite elem_of_list_In in Hq. specialize (Hq Hx). lia.
  - apply existsb_exists. exists x. split; [done|]. apply Nat.eqb_refl.
Qed.

(** ** Both bounds *)
Lemma free_ge q m : forall cs, (N.of_nat q ^ N.of_nat m * (N.of_nat q - N.of_nat (length cs)) <= free q m cs * N.of_nat q)%N.
Proof.
  induction m as [|m IH]; intros cs.
  - rewrite free_0. change (N.of_nat 0) with 0%N. rewrite N.pow_0_r. lia.
  - rewrite free_S. rewrite Nat2N.inj_succ, N.pow_succ_r'. specialize (IH (tails cs)). pose proof (outside_ge q (heads cs)) as Ho. rewrite <- (heads_tails cs).
    set (A := free q m (tails cs)) in *. set (P := (N.of_nat q ^ N.of_nat m)%N) in *. set (h := length (heads cs)) in *. set (t := length (tails cs)) in *. set (Q := N.of_nat q) in *. clearbody A P h t Q.
    rewrite Nat2N.inj_add. set (H := N.of_nat h) in *. set (T := N.of_nat t) in *. clearbody H T.
    transitivity ((Q - H) * (P * (Q - T)))%N.
    + destruct (N.le_gt_cases Q (H + T)) as [L|L].
      * replace (Q - (H + T))%N with 0%N by lia. rewrite N.mul_0_r. apply N.le_0_l.
      * replace (Q * P * (Q - (H + T)))%N with (P * (Q * (Q - (H + T))))%N by lia. replace ((Q - H) * (P * (Q - T)))%N with (P * ((Q - H) * (Q - T)))%N by lia.
        apply N.mul_le_mono_l. assert (exists R, Q = (H + T + R)%N) as [R ->] by (exists (Q - (H + T))%N; lia).
        replace (H + T + R - (H + T))%N with R by lia. replace (H + T + R - H)%N with (T + R)%N by lia. replace (H + T + R - T)%N with (H + R)%N by lia. nia.
    + transitivity ((Q - H) * (A * Q))%N; [by apply N.mul_le_mono_l|]. replace (outside q (heads cs) * A * Q)%N with (outside q (heads cs) * (A * Q))%N by lia. by apply N.mul_le_mono_r.
Qed.
Lemma free_le q m : 0 < q -> forall cs : list comparison, NoDup cs -> Forall (fun c => c.1 < m /\ c.2 < q) cs ->
  (free q m cs * (N.of_nat q + N.of_nat (length cs)) <= N.of_nat q ^ N.of_nat m * N.of_nat q)%N.
Proof.
  intros Hq. induction m as [|m IH]; intros cs Hd Hc.
  - destruct cs as [|c cs]; [rewrite free_0; change (N.of_nat 0) with 0%N; rewrite N.pow_0_r; cbn [length]; lia|]. apply Forall_cons in Hc as [[Hc _] _]. lia.
  - rewrite free_S. rewrite Forall_forall in Hc. rewrite outside_eq.
    2: by apply heads_NoDup.
    2: { apply Forall_forall. intros v Hv%elem_heads. by apply Hc in Hv as [_ Hv]. }
    specialize (IH (tails cs) (tails_NoDup _ Hd)). rewrite Nat2N.inj_succ, N.pow_succ_r'. rewrite <- (heads_tails cs). rewrite Nat2N.inj_add.
    assert (free q m (tails cs) * (N.of_nat q + N.of_nat (length (tails cs))) <= N.of_nat q ^ N.of_nat m * N.of_nat q)%N as IH'.
    { apply IH. apply Forall_forall. intros [j v] Hv%elem_tails. apply Hc in Hv as [H1 H2]. cbn in *. split; lia. }
    clear IH Hc Hd. set (A := free q m (tails cs)) in *. set (P := (N.of_nat q ^ N.of_nat m)%N) in *. set (H := N.of_nat (length (heads cs))) in *. set (T := N.of_nat (length (tails cs))) in *. set (Q := N.of_nat q) in *. clearbody A P H T Q.
    transitivity (Q * (A * (Q + T)))%N; [|replace (Q * P * Q)%N with (Q * (P * Q))%N by lia; by apply N.mul_le_mono_l].
    replace ((Q - H) * A * (Q + (H + T)))%N with (A * ((Q - H) * (Q + (H + T))))%N by lia. replace (Q * (A * (Q + T)))%N with (A * (Q * (Q + T)))%N by lia.
    apply N.mul_le_mono_l. destruct (N.le_gt_cases Q H) as [L|L]; [replace (Q - H)%N with 0%N by lia; rewrite N.mul_0_l; apply N.le_0_l|].
    assert (exists R, Q = (H + R)%N) as [R ->] by (exists (Q - H)%N; lia). replace (H + R - H)%N with R by lia. nia.
Qed.
Lemma chance_upper q m cs num den : 0 < q -> (N.of_nat (length cs) * den <= num * N.of_nat q)%N -> chance_le q m cs num den.
Proof.
  intros Hq H. unfold chance_le. pose proof (match_free q m cs) as E. pose proof (free_ge q m cs) as G.
  assert (matchCount q m cs * N.of_nat q <= N.of_nat (length cs) * N.of_nat q ^ N.of_nat m)%N as B.
  { set (M := matchCount q m cs) in *. set (A := free q m cs) in *. set (P := (N.of_nat q ^ N.of_nat m)%N) in *. set (L := N.of_nat (length cs)) in *. set (Q := N.of_nat q) in *. clearbody M A P L Q.
    destruct (N.le_gt_cases Q L) as [Hl|Hl]; [subst P; nia|]. assert (exists R, Q = (L + R)%N) as [R ->] by (exists (Q - L)%N; lia). replace (L + R - L)%N with R in G by lia. nia. }
  set (M := matchCount q m cs) in *. set (P := (N.of_nat q ^ N.of_nat m)%N) in *. set (L := N.of_nat (length cs)) in *. assert (0 < N.of_nat q)%N as Hq' by lia. set (Q := N.of_nat q) in *. clearbody M P L Q.
  apply (N.mul_le_mono_pos_r _ _ Q Hq'). replace (M * den * Q)%N with (den * (M * Q))%N by lia. transitivity (den * (L * P))%N; [by apply N.mul_le_mono_l|].
  replace (den * (L * P))%N with (P * (L * den))%N by lia. replace (num * P * Q)%N with (P * (num * Q))%N by lia. by apply N.mul_le_mono_l.
Qed.
Lemma chance_lower q m (cs : list comparison) num den : 0 < q -> NoDup cs -> Forall (fun c => c.1 < m /\ c.2 < q) cs ->
  (num * (N.of_nat q + N.of_nat (length cs)) < N.of_nat (length cs) * den)%N -> chance_gt q m cs num den.
Proof.
  intros Hq Hd Hc H. unfold chance_gt. pose proof (match_free q m cs) as E. pose proof (free_le q m Hq cs Hd Hc) as G.
  assert (0 < N.of_nat q ^ N.of_nat m)%N as HP by (apply N.neq_0_lt_0, N.pow_nonzero; lia).
  set (M := matchCount q m cs) in *. set (A := free q m cs) in *. set (P := (N.of_nat q ^ N.of_nat m)%N) in *. set (L := N.of_nat (length cs)) in *. assert (0 < N.of_nat q)%N as Hq' by lia. set (Q := N.of_nat q) in *. clearbody M A P L Q.
  assert (L * P <= M * (Q + L))%N as B by nia. apply (N.mul_lt_mono_pos_r (Q + L)); [lia|].
  apply N.lt_le_trans with (P * (L * den))%N.
  - replace (num * P * (Q + L))%N with (P * (num * (Q + L)))%N by lia. by apply N.mul_lt_mono_pos_l.
  - replace (P * (L * den))%N with (den * (L * P))%N by lia. replace (M * den * (Q + L))%N with (den * (M * (Q + L)))%N by lia. by apply N.mul_le_mono_l.
Qed.
