(** Proofs about a second [init] of a simple index. *)
From Verif Require Import Base SimpleIndex_Model SimpleIndex_Spec SimpleAgain_Model SimpleAgain_Spec.
Open Scope N_scope.

Definition rel (k : nat -> nat) (cells : list (list N)) (s1 s2 : SIndex) : Prop :=
  length (siSizes s1) = length (siSizes s2) /\ length (siSizes s1) = length (siBins s1) /\
  length (siSizes s1) = length (siBins s2) /\
  forall b n1 n2 r1 r2, siSizes s1 !! b = Some n1 -> siSizes s2 !! b = Some n2 ->
    siBins s1 !! b = Some r1 -> siBins s2 !! b = Some r2 ->
    exists c, cells !! b = Some c /\ n2 = N.of_nat (k b) + n1 /\ (N.to_nat n1 <= length r1)%nat /\ (N.to_nat n2 <= length r2)%nat /\ (k b <= length c)%nat /\
      take (N.to_nat n2) r2 = take (k b) c ++ take (N.to_nat n1) r1.

Lemma take_S_set {A} (l : list A) n v : (n < length l)%nat -> take (S n) (<[n := v]> l) = take n l ++ [v].
Proof.
  intros L. rewrite (take_S_r _ _ v) by (apply list_lookup_insert; lia). by rewrite take_insert by lia.
Qed.

Lemma rel_exec k cells s1 s2 o s1' s2' : rel k cells s1 s2 -> siExec s1 o = Some s1' -> siExec s2 o = Some s2' -> rel k cells s1' s2'.
Proof.
  intros (L1 & L2 & L3 & R) E1 E2. destruct o as [b idx h c|row h v]; cbn in E1, E2.
  - destruct (readN (siSizes s1) b) as [n1|] eqn:A1; [|done]. destruct (readN (siBins s1) b) as [r1|] eqn:B1; [|done].
    destruct (writeN r1 n1 _) as [r1'|] eqn:W1; [|done].
    destruct (readN (siSizes s2) b) as [n2|] eqn:A2; [|done]. destruct (readN (siBins s2) b) as [r2|] eqn:B2; [|done].
    destruct (writeN r2 n2 _) as [r2'|] eqn:W2; [|done]. simplify_eq.
    apply writeN_Some in W1 as (G1 & ->). apply writeN_Some in W2 as (G2 & ->).
    unfold rel. cbn. rewrite !insert_length. split; [done|]. split; [done|]. split; [done|].
    intros b' m1 m2 q1 q2. apply readN_Some in A1, A2, B1, B2.
    assert ((N.to_nat b < length (siSizes s1))%nat) as Lb by (eapply lookup_lt_Some; exact A1).
    destruct (decide (b' = N.to_nat b)) as [->|Ne].
    + rewrite !list_lookup_insert by lia. intros [= <-] [= <-] [= <-] [= <-].
      destruct (R _ _ _ _ _ A1 A2 B1 B2) as (cc & Hc & -> & K1 & K2 & K3 & T). exists cc.
      rewrite !insert_length. split; [done|]. split; [lia|]. split; [lia|]. split; [lia|]. split; [done|].
      replace (N.to_nat (N.of_nat (k (N.to_nat b)) + n1 + 1)) with (S (N.to_nat (N.of_nat (k (N.to_nat b)) + n1))) by lia.
      replace (N.to_nat (n1 + 1)) with (S (N.to_nat n1)) by lia.
      rewrite (take_S_set r2) by lia. rewrite (take_S_set r1) by lia. rewrite T. by rewrite app_assoc.
    + rewrite !list_lookup_insert_ne by done. apply R.
  - destruct (readN (siMap s1) row) as [r1|]; [|done]. destruct (writeN r1 h v); [|done].
    destruct (readN (siMap s2) row) as [r2|]; [|done]. destruct (writeN r2 h v); [|done]. simplify_eq. done.
Qed.

Lemma rel_run k cells ops : forall s1 s2 s1' s2', rel k cells s1 s2 -> siRun s1 ops = Some s1' -> siRun s2 ops = Some s2' -> rel k cells s1' s2'.
Proof.
  induction ops as [|o ops IH]; intros s1 s2 s1' s2' R; cbn; [by intros [= <-] [= <-]|].
  destruct (siExec s1 o) eqn:E1; [|done]. destruct (siExec s2 o) eqn:E2; [|done].
  apply IH. eapply rel_exec; eauto.
Qed.

Lemma rel_bins k cells s1 s2 b : rel k cells s1 s2 -> length cells = length (siSizes s1) -> (b < length cells)%nat ->
  binEntries s2 b = map decodeItem (take (k b) (default [] (cells !! b))) ++ binEntries s1 b.
Proof.
  intros (L1 & L2 & L3 & R) Lc Lb. unfold binEntries.
  destruct (lookup_lt_is_Some_2 (siSizes s1) b ltac:(lia)) as [n1 A1].
  destruct (lookup_lt_is_Some_2 (siSizes s2) b ltac:(lia)) as [n2 A2].
  destruct (lookup_lt_is_Some_2 (siBins s1) b ltac:(lia)) as [r1 B1].
  destruct (lookup_lt_is_Some_2 (siBins s2) b ltac:(lia)) as [r2 B2].
  rewrite A1, A2, B1, B2. destruct (R _ _ _ _ _ A1 A2 B1 B2) as (c & Hc & -> & _ & _ & _ & T).
  rewrite T, Hc. cbn. by rewrite map_app.
Qed.

Lemma resizeZ_length l n : length (resizeZ l n) = n.
Proof. unfold resizeZ. rewrite app_length, take_length, replicate_length. lia. Qed.
Lemma resizeZ_lookup l n b : (b < n)%nat -> resizeZ l n !! b = Some (match l !! b with Some v => v | None => 0 end).
Proof.
  intros Lb. unfold resizeZ. destruct (l !! b) as [v|] eqn:E.
  - rewrite lookup_app_l by (apply lookup_lt_Some in E; rewrite take_length; lia). by rewrite lookup_take.
  - apply lookup_ge_None in E. rewrite lookup_app_r by (rewrite take_length; lia).
    rewrite lookup_replicate_2; [done|]. rewrite take_length. lia.
Qed.

Section again.
Context (enc : N -> N) (s0 : SIndex) (cells mp : list (list N)) (nb n H mx : N).
Hypothesis (Sh : shaped cells nb mx).
Hypothesis (Fit : forall b, (sizeOf s0 b <= N.to_nat mx)%nat).

Lemma rel_init : rel (sizeOf s0) cells (siInit nb n H mx) (siAgain s0 cells mp nb H).
Proof using Sh Fit enc.
  destruct Sh as [L F]. unfold rel. cbn. rewrite !replicate_length, resizeZ_length. split; [done|]. split; [done|]. split; [done|].
  intros b n1 n2 r1 r2 A1 A2 B1 B2.
  apply lookup_replicate in A1 as [-> Lb]. apply lookup_replicate in B1 as [-> _].
  rewrite resizeZ_lookup in A2 by done. injection A2 as A2.
  exists r2. split; [done|]. assert (length r2 = N.to_nat mx) as Lr by (rewrite Forall_lookup in F; eauto).
  specialize (Fit b). unfold sizeOf in *. rewrite <- A2.
  destruct (siSizes s0 !! b) as [v|]; cbn; rewrite ?app_nil_r; split_and!; try lia; try done.
Qed.

Lemma again_bins xs s s' : siInsert enc (siInit nb n H mx) xs = Done s -> siInsert enc (siAgain s0 cells mp nb H) xs = Done s' ->
  forall b, (b < N.to_nat nb)%nat -> binEntries s' b = map decodeItem (take (sizeOf s0 b) (default [] (cells !! b))) ++ binEntries s b.
Proof using Sh Fit.
  unfold siInsert. cbn [siNumBins siH siInit siAgain]. destruct ((nb =? 0) || (5 <? H)); [done|]. cbv zeta.
  set (ops := if H =? 3 then _ else _). clearbody ops.
  destruct (siRun (siInit nb n H mx) ops) as [t|] eqn:E1; [|done]. intros [= ->].
  destruct (siRun (siAgain s0 cells mp nb H) ops) as [t'|] eqn:E2; [|done]. intros [= ->].
  intros b Lb. pose proof rel_init as R. pose proof (rel_run _ _ _ _ _ _ _ R E1 E2) as R'.
  apply (rel_bins _ _ _ _ _ R').
  - destruct Sh as [L _]. rewrite L. clear - E1.
    assert (forall ops s s', siRun s ops = Some s' -> length (siSizes s') = length (siSizes s)) as G.
    { induction ops0 as [|o ops0 IH]; intros s1 s1'; cbn; [by intros [= <-]|]. destruct (siExec s1 o) as [s2|] eqn:E; [|done].
      intros E'. apply IH in E'. rewrite E'. destruct o; cbn in E; repeat case_match; simplify_eq; cbn; by rewrite ?insert_length. }
    rewrite (G _ _ _ E1). cbn. by rewrite replicate_length.
  - destruct Sh as [L _]. lia.
Qed.
End again.

(** A bin index beyond the bins has no entries. *)
Lemma insert_sizes enc s0 xs s : siInsert enc s0 xs = Done s -> length (siSizes s) = length (siSizes s0).
Proof.
  unfold siInsert. destruct ((siNumBins s0 =? 0) || (5 <? siH s0)); [done|]. cbv zeta.
  match goal with |- context [siRun s0 ?o] => generalize o end. intros ops.
  assert (forall ops s s', siRun s ops = Some s' -> length (siSizes s') = length (siSizes s)) as G.
  { induction ops0 as [|o ops0 IH]; intros s1 s1'; cbn; [by intros [= <-]|]. destruct (siExec s1 o) as [s2|] eqn:E; [|done].
    intros E'. apply IH in E'. rewrite E'. destruct o; cbn in E; repeat case_match; simplify_eq; cbn; by rewrite ?insert_length. }
  destruct (siRun s0 ops) eqn:E; [|done]. intros [= ->]. by apply G in E.
Qed.

Lemma again_empty enc s0 cells mp nb n H mx xs s s' : shaped cells nb mx -> (forall b, (b < N.to_nat nb)%nat -> sizeOf s0 b = 0%nat) ->
  siInsert enc (siInit nb n H mx) xs = Done s -> siInsert enc (siAgain s0 cells mp nb H) xs = Done s' -> sameBins s s'.
Proof.
  intros Sh Z E1 E2 b.
  set (s1 := mkSIndex (siH s0) (siNumBins s0) (siBins s0) (take (N.to_nat nb) (siSizes s0)) (siMap s0)).
  assert (forall b, sizeOf s1 b = 0%nat) as Z1.
  { intros b'. unfold sizeOf, s1. cbn. destruct (decide (b' < N.to_nat nb)%nat) as [L|L].
    - rewrite lookup_take by done. exact (Z b' L).
    - by rewrite lookup_take_ge by lia. }
  assert (siAgain s0 cells mp nb H = siAgain s1 cells mp nb H) as EE.
  { unfold siAgain, s1. cbn. f_equal. apply list_eq. intros i. destruct (decide (i < N.to_nat nb)%nat) as [L|L].
    - rewrite !resizeZ_lookup by done. by rewrite lookup_take by done.
    - rewrite !lookup_ge_None_2; [done| |]; rewrite resizeZ_length; lia. }
  rewrite EE in E2. destruct (decide (b < N.to_nat nb)%nat) as [L|L].
  - rewrite (again_bins enc s1 cells mp nb n H mx Sh (fun b => ltac:(rewrite Z1; lia)) xs s s' E1 E2 b L). by rewrite Z1.
  - apply insert_sizes in E1. apply insert_sizes in E2. cbn in E1, E2. rewrite replicate_length in E1. rewrite resizeZ_length in E2.
    unfold binEntries. rewrite !lookup_ge_None_2 by lia. done.
Qed.

Lemma insert_cases enc s xs (P : outcome SIndex -> Prop) : P UB -> (forall s', P (Done s')) -> forall o, siInsert enc s xs = o -> P o.
Proof.
  intros U D o <-. unfold siInsert. destruct ((siNumBins s =? 0) || (5 <? siH s)); [done|]. cbv zeta.
  match goal with |- context [siRun s ?ops] => destruct (siRun s ops) end; done.
Qed.

Lemma again_more enc s0 nb n H mx xs s b : (b < N.to_nat nb)%nat -> (1 <= sizeOf s0 b)%nat -> (forall b, (sizeOf s0 b <= N.to_nat mx)%nat) ->
  siInsert enc (siInit nb n H mx) xs = Done s ->
  forall cells mp, shaped cells nb mx -> shaped mp n H ->
    match siInsert enc (siAgain s0 cells mp nb H) xs with Done s' => ~ sameBins s s' | UB => True | _ => False end.
Proof.
  intros Lb Sb Fit E1 cells mp Sh _.
  apply (insert_cases enc (siAgain s0 cells mp nb H) xs
    (fun o => siInsert enc (siAgain s0 cells mp nb H) xs = o -> match o with Done s' => ~ sameBins s s' | UB => True | _ => False end)
    (fun _ => I)) with (o := siInsert enc (siAgain s0 cells mp nb H) xs); [|reflexivity|reflexivity].
  intros s' E2 Sm. pose proof (again_bins enc s0 cells mp nb n H mx Sh Fit xs s s' E1 E2 b Lb) as G.
  rewrite <- Sm in G. apply (f_equal length) in G. rewrite app_length, map_length, take_length in G.
  destruct Sh as [L F]. destruct (lookup_lt_is_Some_2 cells b ltac:(lia)) as [r Er]. rewrite Er in G. cbn in G.
  rewrite Forall_lookup in F. pose proof (F _ _ Er) as Lr. specialize (Fit b). lia.
Qed.
