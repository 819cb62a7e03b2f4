(** Proofs about the bin size search. *)
From Coq Require Import QArith.
From Verif Require Import Base SimpleIndex_Model SimpleIndex_Spec.
Open Scope N_scope.

Section search.
Context (est : N -> N -> N -> Q) (nb n stat : N) (Hn : n <= 2 ^ 31 - 1).

Definition pb (B : N) : option Q := if n <=? B then None else Some (est nb n B).
Definition good (B : N) : bool := negb (below (pb B) stat).

Lemma prob_ok B : overflowProb est nb n B = Done (pb B).
Proof.
  unfold overflowProb, pb. destruct (n <=? B); [done|]. by rewrite (proj2 (N.ltb_ge _ _)) by lia.
Qed.

Lemma good_meets B : good B = true <-> meets est nb n stat B.
Proof.
  unfold good, pb, meets. destruct (N.leb_spec n B); simpl.
  - split; [by left|done].
  - rewrite negb_involutive. rewrite Qle_bool_iff. split; [by right|]. intros [|]; [lia|done].
Qed.

Lemma good_big B : n <= B -> good B = true.
Proof. intros H. apply good_meets. by left. Qed.

Notation loop := (binSizeLoop est nb n stat).

Lemma below_good B : below (pb B) stat = negb (good B).
Proof. unfold good. by rewrite negb_involutive. Qed.

Lemma stop fuel B d : good B = true -> loop fuel B 1 d (pb B) = Done B.
Proof. intros G. destruct fuel; simpl; by rewrite below_good, G. Qed.

Lemma step_bad fuel B s d : good B = false -> 0 < s -> 2 * s < two64 -> B + 2 * s < two64 ->
  loop (S fuel) B s d (pb B) =
  (let s' := if d then 2 * s else N.max 1 (s / 2) in loop fuel (B + s') s' d (pb (B + s'))).
Proof.
  intros G Hs H1 H2. cbn [binSizeLoop]. rewrite below_good, G. simpl negb. cbn [orb].
  rewrite (proj2 (N.eqb_neq s 0)) by lia. destruct d.
  - replace (N.max 1 ((s * 2) mod two64)) with (2 * s) by (rewrite (N.mod_small (s * 2)) by lia; lia).
    rewrite (N.mod_small (B + 2 * s)) by lia. by rewrite prob_ok.
  - rewrite (N.mod_small (B + N.max 1 (s / 2))) by lia. by rewrite prob_ok.
Qed.

Lemma step_good fuel B s d : good B = true -> 1 < s -> s <= B -> B < two64 ->
  loop (S fuel) B s d (pb B) = loop fuel (B - N.max 1 (s / 2)) (N.max 1 (s / 2)) false (pb (B - N.max 1 (s / 2))).
Proof.
  intros G Hs H1 H2. cbn [binSizeLoop]. rewrite below_good, G. simpl negb. cbn [orb].
  rewrite (proj2 (N.ltb_lt 1 s)) by done. rewrite (proj2 (N.eqb_neq s 0)) by lia.
  replace ((B + two64 - N.max 1 (s / 2)) mod two64) with (B - N.max 1 (s / 2)).
  - by rewrite prob_ok.
  - replace (B + two64 - N.max 1 (s / 2)) with (B - N.max 1 (s / 2) + 1 * two64) by lia.
    rewrite N.mod_add by done. rewrite N.mod_small; lia.
Qed.

Definition mono : Prop := forall a b, N.max 1 (n / nb) <= a -> a <= b -> good a = true -> good b = true.

Lemma linear m : forall B, (N.to_nat (n - B) <= m)%nat -> B < 2 ^ 40 ->
  exists fuel r, loop fuel B 1 false (pb B) = Done r /\ good r = true /\ B <= r /\
    (good (B + 1) = true -> r <= B + 1) /\ (r <> B -> good (r - 1) = false).
Proof.
  induction m as [|m IH]; intros B L H40.
  - exists O, B. assert (good B = true) as G by (apply good_big; lia).
    rewrite stop by done. split_and!; try done; lia.
  - destruct (good B) eqn:G.
    + exists O, B. rewrite stop by done. split_and!; try done; lia.
    + assert (B < n) as Hlt by (destruct (N.lt_ge_cases B n) as [|Hge]; [done|rewrite (good_big B) in G; done]).
      destruct (IH (B + 1) ltac:(lia) ltac:(lia)) as (fuel & r & E & Gr & Hr & Hs & Hne).
      exists (S fuel), r. rewrite step_bad; try (unfold two64; lia); [|done].
      change (if false then 2 * 1 else N.max 1 (1 / 2)) with 1. cbn zeta.
      split; [exact E|]. split; [done|]. split; [lia|]. split.
      * intros G1. rewrite stop in E by done. injection E as <-. lia.
      * intros _. destruct (N.eq_dec r (B + 1)) as [->|]; [|by apply Hne].
        by replace (B + 1 - 1) with B by lia.
Qed.

Lemma halving k : forall B, 2 ^ N.of_nat k <= B -> B + 2 ^ N.of_nat k <= 2 ^ 40 ->
  exists fuel r, loop fuel B (2 ^ N.of_nat k) false (pb B) = Done r /\ good r = true /\
    B - 2 ^ N.of_nat k < r /\
    (mono -> N.max 1 (n / nb) <= B - 2 ^ N.of_nat k ->
     good (B - 2 ^ N.of_nat k) = false -> good (B + 2 ^ N.of_nat k) = true -> good (r - 1) = false).
Proof.
  induction k as [|k IH]; intros B H1 H2.
  - change (2 ^ N.of_nat 0) with 1 in *.
    destruct (linear (N.to_nat (n - B)) B ltac:(lia) ltac:(lia)) as (fuel & r & E & G & Hr & _ & Hne).
    exists fuel, r. split; [done|]. split; [done|]. split; [lia|]. intros _ _ Bad _.
    destruct (N.eq_dec r B) as [->|]; [done|by apply Hne].
  - assert (2 ^ N.of_nat (S k) = 2 * 2 ^ N.of_nat k) as E2.
    { rewrite Nat2N.inj_succ, N.pow_succ_r'. done. }
    rewrite E2 in *. set (s := 2 ^ N.of_nat k) in *.
    assert (0 < s) as Hs by (unfold s; apply N.neq_0_lt_0, N.pow_nonzero; done).
    assert (N.max 1 (2 * s / 2) = s) as Hhalf.
    { replace (2 * s) with (s * 2) by lia. rewrite N.div_mul by done. lia. }
    destruct (good B) eqn:G.
    + destruct (IH (B - s) ltac:(lia) ltac:(lia)) as (fuel & r & E & Gr & Hr & Hm).
      exists (S fuel), r. rewrite step_good; [|done|lia|lia|unfold two64; lia]. rewrite Hhalf.
      split; [exact E|]. split; [done|]. split; [lia|]. intros M Hlo Bad _.
      apply Hm; [done|lia| |].
      * by replace (B - s - s) with (B - 2 * s) by lia.
      * by replace (B - s + s) with B by lia.
    + destruct (IH (B + s) ltac:(lia) ltac:(lia)) as (fuel & r & E & Gr & Hr & Hm).
      exists (S fuel), r. rewrite step_bad; [|done|lia|unfold two64; lia|unfold two64; lia]. cbn zeta iota.
      rewrite Hhalf. split; [exact E|]. split; [done|]. split; [lia|]. intros M Hlo Bad Good.
      apply Hm; [done|lia| |].
      * by replace (B + s - s) with B by lia.
      * by replace (B + s + s) with (B + 2 * s) by lia.
Qed.

Lemma doubling m : forall k B, (N.to_nat (n - B) <= m)%nat -> good B = false ->
  2 ^ N.of_nat k <= B + 1 -> 1 <= B -> N.max 1 (n / nb) <= B ->
  exists fuel r, loop fuel B (2 ^ N.of_nat k) true (pb B) = Done r /\ good r = true /\ B < r /\
    (mono -> good (r - 1) = false).
Proof.
  induction m as [|m IH]; intros k B L G Hk H1 Hlo.
  - rewrite good_big in G by lia. done.
  - assert (B < n) as Hlt by (destruct (N.lt_ge_cases B n) as [|Hge]; [done|rewrite (good_big B) in G; done]).
    set (s := 2 ^ N.of_nat k) in *.
    assert (2 ^ N.of_nat (S k) = 2 * s) as E2.
    { rewrite Nat2N.inj_succ, N.pow_succ_r'. done. }
    assert (0 < s) as Hs by (unfold s; apply N.neq_0_lt_0, N.pow_nonzero; done).
    destruct (good (B + 2 * s)) eqn:G2.
    + destruct (halving k (B + s)) as (fuel & r & E & Gr & Hr & Hm).
      { fold s. lia. } { fold s. lia. }
      fold s in E, Hr, Hm.
      exists (S (S fuel)), r. rewrite step_bad; [|done|lia|unfold two64; lia|unfold two64; lia]. cbn zeta iota.
      rewrite step_good; [|done|lia|lia|unfold two64; lia].
      assert (N.max 1 (2 * s / 2) = s) as ->.
      { replace (2 * s) with (s * 2) by lia. rewrite N.div_mul by done. lia. }
      replace (B + 2 * s - s) with (B + s) by lia.
      split; [exact E|]. split; [done|]. split; [lia|]. intros M. apply Hm; [done|lia| |].
      * by replace (B + s - s) with B by lia.
      * by replace (B + s + s) with (B + 2 * s) by lia.
    + destruct (IH (S k) (B + 2 * s)) as (fuel & r & E & Gr & Hr & Hm); try done; try lia.
      exists (S fuel), r. rewrite step_bad; [|done|lia|unfold two64; lia|unfold two64; lia]. cbn zeta iota.
      rewrite E2 in E. split; [exact E|]. split; [done|]. split; [lia|done].
Qed.

Lemma search_ok : 0 < nb ->
  exists fuel r, getBinSize est fuel nb n stat = Done r /\ good r = true /\ N.max 1 (n / nb) <= r /\
    (mono -> forall B, N.max 1 (n / nb) <= B -> B < r -> good B = false).
Proof.
  intros Hnb. unfold getBinSize. rewrite (proj2 (N.eqb_neq nb 0)) by lia.
  set (B0 := N.max 1 (n / nb)) in *. rewrite prob_ok. destruct (good B0) eqn:G.
  - exists O, B0. rewrite stop by done. split_and!; try done. intros _ B ? ?. lia.
  - destruct (doubling (N.to_nat (n - B0)) 0 B0 ltac:(lia) G) as (fuel & r & E & Gr & Hr & Hm).
    { change (2 ^ N.of_nat 0) with 1. lia. } { lia. } { unfold B0. lia. }
    exists fuel, r. split; [exact E|]. split; [done|]. split; [lia|].
    intros M B HB Hlt. destruct (good B) eqn:GB; [|done].
    rewrite <- (Hm M). symmetry. apply (M B); [done|lia|done].
Qed.
End search.

Lemma loop_meets est nb n stat : forall fuel B s d p r,
  (overflowProb est nb n B = Done p) ->
  binSizeLoop est nb n stat fuel B s d p = Done r -> meets est nb n stat r.
Proof.
  assert (forall B p, overflowProb est nb n B = Done p -> below p stat = false -> meets est nb n stat B) as X.
  { intros B p. unfold overflowProb, meets. destruct (N.leb_spec n B); [by left|].
    destruct (_ <? n); [done|]. intros [= <-]. simpl. intros E. right.
    apply Qle_bool_iff. by apply negb_false_iff. }
  induction fuel as [|fuel IH]; intros B s d p r P; cbn [binSizeLoop].
  - destruct (below p stat) eqn:Eb; [done|]. destruct (1 <? s); [done|]. intros [= <-]. by eapply X.
  - destruct (below p stat) eqn:Eb; cbn [orb].
    + destruct (s =? 0); [done|]. clear P. destruct (overflowProb _ _ _ _) eqn:E; try done. by apply IH.
    + destruct (1 <? s).
      * destruct (s =? 0); [done|]. clear P. destruct (overflowProb _ _ _ _) eqn:E; try done. by apply IH.
      * intros [= <-]. by eapply X.
Qed.

Lemma getBinSize_meets est fuel nb n stat r :
  getBinSize est fuel nb n stat = Done r -> meets est nb n stat r.
Proof.
  unfold getBinSize. destruct (nb =? 0); [done|].
  destruct (overflowProb est nb n (N.max 1 (n / nb))) as [p|p| |] eqn:E; try done. by apply loop_meets.
Qed.

Lemma getBinSize_ok est nb n stat : 0 < nb -> n <= 2 ^ 31 - 1 ->
  exists fuel r, getBinSize est fuel nb n stat = Done r /\ N.max 1 (n / nb) <= r /\ meets est nb n stat r /\
    ((forall a b, N.max 1 (n / nb) <= a -> a <= b -> meets est nb n stat a -> meets est nb n stat b) ->
     forall B, N.max 1 (n / nb) <= B -> B < r -> ~ meets est nb n stat B).
Proof.
  intros Hnb Hn. destruct (search_ok est nb n stat Hn Hnb) as (fuel & r & E & G & Hr & Hm).
  exists fuel, r. split; [done|]. split; [done|]. split; [by apply (good_meets est nb n stat Hn)|].
  intros M B HB Hlt Hmeet. apply (good_meets est nb n stat Hn) in Hmeet. rewrite Hm in Hmeet; try done.
  intros a b Ha Hab Hg. apply (good_meets est nb n stat Hn). apply (M a b); try done. by apply (good_meets est nb n stat Hn).
Qed.

Lemma getBinSize_big est fuel nb n stat : 2 <= nb -> 2 ^ 31 <= n ->
  getBinSize est fuel nb n stat = Thrown 0.
Proof.
  intros Hnb Hn. unfold getBinSize. rewrite (proj2 (N.eqb_neq nb 0)) by lia.
  assert (N.max 1 (n / nb) < n) as L.
  { apply N.max_lub_lt; [lia|]. apply N.div_lt; lia. }
  unfold overflowProb. rewrite (proj2 (N.leb_gt _ _)) by done. by rewrite (proj2 (N.ltb_lt _ _)) by lia.
Qed.

Lemma loop_fuel est nb n stat : forall f1 f2 B s d p r, (f1 <= f2)%nat ->
  binSizeLoop est nb n stat f1 B s d p = Done r -> binSizeLoop est nb n stat f2 B s d p = Done r.
Proof.
  induction f1 as [|f1 IH]; intros f2 B s d p r L.
  - destruct f2; simpl; destruct (below p stat || (1 <? s)); done.
  - destruct f2 as [|f2]; [lia|]. cbn [binSizeLoop]. destruct (below p stat || (1 <? s)); [|done].
    destruct (s =? 0); [done|]. destruct (below p stat).
    + destruct (overflowProb _ _ _ _); try done. apply IH. lia.
    + destruct (overflowProb _ _ _ _); try done. apply IH. lia.
Qed.

Lemma getBinSize_fuel est nb n stat f1 f2 r : (f1 <= f2)%nat ->
  getBinSize est f1 nb n stat = Done r -> getBinSize est f2 nb n stat = Done r.
Proof.
  intros L. unfold getBinSize. destruct (nb =? 0); [done|]. destruct (overflowProb _ _ _ _); try done.
  by apply loop_fuel.
Qed.

Lemma getBinSize_full est nb n stat : 0 < nb -> n <= 2 ^ 31 - 1 ->
  exists f0 r, (forall fuel, (f0 <= fuel)%nat -> getBinSize est fuel nb n stat = Done r) /\
    N.max 1 (n / nb) <= r /\ meets est nb n stat r /\
    ((forall a b, N.max 1 (n / nb) <= a -> a <= b -> meets est nb n stat a -> meets est nb n stat b) ->
     forall B, N.max 1 (n / nb) <= B -> B < r -> ~ meets est nb n stat B).
Proof.
  intros Hnb Hn. destruct (getBinSize_ok est nb n stat Hnb Hn) as (f0 & r & E & H).
  exists f0, r. split; [|done]. intros fuel L. by eapply getBinSize_fuel.
Qed.
