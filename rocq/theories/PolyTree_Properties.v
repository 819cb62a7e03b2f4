(** Property theorems about the polynomial tree of PRTY (C99 - C101). *)
From Verif Require Import Base PolyTree_Model PolyTree_Spec PolyTree_Proofs PolyTree_Proofs2 PolyTree_Proofs3.
Local Open Scope nat_scope.

(** The field with 17 elements, for the examples. *)
Inductive z17 := Z0 | Z1 | Z2 | Z3 | Z4 | Z5 | Z6 | Z7 | Z8 | Z9 | Z10 | Z11 | Z12 | Z13 | Z14 | Z15 | Z16.
Definition all17 : list z17 := [Z0; Z1; Z2; Z3; Z4; Z5; Z6; Z7; Z8; Z9; Z10; Z11; Z12; Z13; Z14; Z15; Z16].
Definition toN17 (a : z17) : N := match a with Z0 => 0 | Z1 => 1 | Z2 => 2 | Z3 => 3 | Z4 => 4 | Z5 => 5 | Z6 => 6 | Z7 => 7 | Z8 => 8 | Z9 => 9 | Z10 => 10 | Z11 => 11 | Z12 => 12 | Z13 => 13 | Z14 => 14 | Z15 => 15 | Z16 => 16 end%N.
Definition ofN17 (n : N) : z17 := nth (N.to_nat (n mod 17)) all17 Z0.
Definition F17 : fops := mkFops z17 Z0 Z1 (fun a b => ofN17 (toN17 a + toN17 b)) (fun a b => ofN17 (toN17 a * toN17 b)) (fun a b => ofN17 (toN17 a + 17 - toN17 b)) (fun a => ofN17 (17 - toN17 a))
  (fun a => ofN17 (toN17 a ^ 15)) (fun a b => N.eqb (toN17 a) (toN17 b)).
Lemma in17 (a : z17) : In a all17.
Proof. destruct a; cbn; tauto. Qed.
Lemma eq17 (a b : z17) : N.eqb (toN17 a) (toN17 b) = true <-> a = b.
Proof. split; [|intros ->; apply N.eqb_refl]. destruct a, b; (reflexivity || discriminate). Qed.
Lemma check1 (f : z17 -> bool) : forallb f all17 = true -> forall a, f a = true.
Proof. intros H a. rewrite forallb_forall in H. apply H, in17. Qed.
Lemma check2 (f : z17 -> z17 -> bool) : forallb (fun a => forallb (f a) all17) all17 = true -> forall a b, f a b = true.
Proof. intros H a. apply check1. exact (check1 _ H a). Qed.
Lemma check3 (f : z17 -> z17 -> z17 -> bool) : forallb (fun a => forallb (fun b => forallb (f a b) all17) all17) all17 = true -> forall a b c, f a b c = true.
Proof. intros H a. apply check2. exact (check1 _ H a). Qed.
Lemma F17_field : isField F17.
Proof.
  split; [|exact eq17]. constructor; [constructor| | |]; cbn [F17 fT f0 f1 fadd fmul fsub fopp finv].
  - intros a. apply eq17. revert a. apply check1. by vm_compute.
  - intros a b. apply eq17. revert a b. apply check2. by vm_compute.
  - intros a b c. apply eq17. revert a b c. apply check3. by vm_compute.
  - intros a. apply eq17. revert a. apply check1. by vm_compute.
  - intros a b. apply eq17. revert a b. apply check2. by vm_compute.
  - intros a b c. apply eq17. revert a b c. apply check3. by vm_compute.
  - intros a b c. apply eq17. revert a b c. apply check3. by vm_compute.
  - intros a b. apply eq17. revert a b. apply check2. by vm_compute.
  - intros a. apply eq17. revert a. apply check1. by vm_compute.
  - done.
  - done.
  - intros a Ha. destruct a; [done|reflexivity..].
Qed.
Definition pts17 (n : nat) : list z17 := take n [Z3; Z0; Z16; Z5; Z9; Z1; Z12; Z7; Z10; Z2; Z15].

(** * C99: multipoint evaluation *)

(** The statement for all numbers of threads and points is false: five threads and ten points, where an inner node is zero, and one thread per point. *)
Theorem C99_eval_refuted : exists K sc1 sc2 sch1 sch2 P pts pts', isField K /\ length pts = 10 /\ length pts' = 2 /\
  multiEval K sc1 sc2 sch1 sch2 5 P pts = Thrown [] /\ multiEval K sc1 sc2 sch1 sch2 2 P pts' = UB.
Proof. exists F17, [], [], (fun _ => []), (fun _ => []), [Z1], (pts17 10), (pts17 2). split; [exact F17_field|]. split; [done|]. split; [done|]. split; by vm_compute. Qed.
Print Assumptions C99_eval_refuted.

(** A power of two of threads, or three, and at least twice as many points: the values of the polynomial, whatever the schedule. *)
Theorem C99_eval_partial K sc1 sc2 sch1 sch2 T P pts : isField K -> 2 * T <= length pts -> (exists k, T = 2 ^ k) \/ T = 3 -> multiEval K sc1 sc2 sch1 sch2 T P pts = Done (map (evalAt K P) pts).
Proof. intros HK. exact (multi_done K HK pts sc1 sc2 sch1 sch2 T P). Qed.
Print Assumptions C99_eval_partial.
(** No other run succeeds. *)
Theorem C99_eval_fails K sc1 sc2 sch1 sch2 T P pts : 0 < T ->
  (length pts < 2 * T -> multiEval K sc1 sc2 sch1 sch2 T P pts = UB) /\
  (2 * T <= length pts -> (forall k, T <> 2 ^ k) -> T <> 3 -> multiEval K sc1 sc2 sch1 sch2 T P pts = Thrown []).
Proof. intros HT. split; [exact (multi_ub K pts sc1 sc2 sch1 sch2 T P HT)|exact (multi_thrown K pts sc1 sc2 sch1 sch2 T P HT)]. Qed.
Print Assumptions C99_eval_fails.
(** A tree that is built once serves polynomials and numbers of threads up to the number of points; the array of remainders may be dirty. *)
Theorem C99_reuse K sc1 sc2 sch1 sch2 k T P pts old tree : isField K -> 2 * 2 ^ k <= length pts -> 0 < T <= length pts -> length old = 2 * length pts - 1 ->
  buildTree K sc1 sch1 (2 ^ k) pts = Done tree -> evaluate K sc2 sch2 T (length pts) P tree old = Done (map (evalAt K P) pts).
Proof. exact (reuse_ok K sc1 sc2 sch1 sch2 k T P pts old tree). Qed.
Print Assumptions C99_reuse.
Example C99_example : multiEval F17 [1; 1; 3; 0; 2; 2] [0; 3; 3; 1] (fun i => [i; 1]) (fun i => [2; i]) 4 [Z4; Z0; Z2; Z16; Z5] (pts17 9) = Done [Z9; Z4; Z12; Z11; Z10; Z10; Z6; Z0; Z6] /\
  multiEval F17 [2; 1] [0; 2] (fun _ => []) (fun _ => []) 3 [Z4; Z0; Z2; Z16; Z5] (pts17 9) = Done [Z9; Z4; Z12; Z11; Z10; Z10; Z6; Z0; Z6] /\ evalAt F17 [Z4; Z0; Z2; Z16; Z5] Z3 = Z9.
Proof. split; [by vm_compute|]. split; by vm_compute. Qed.

(** * C100: interpolation *)

(** With three threads the root of the tree is zero. *)
Theorem C100_inter_refuted : exists K sc1 sc2 sc3 sch1 sch2 sch3 pts y, isField K /\ NoDup pts /\ length pts = 6 /\ length y = 6 /\ interpolateZp K sc1 sc2 sc3 sch1 sch2 sch3 3 pts y = Thrown [].
Proof.
  exists F17, [], [], [], (fun _ => []), (fun _ => []), (fun _ => []), (pts17 6), (pts17 6). split; [exact F17_field|]. split; [|split; [done|split; [done|by vm_compute]]].
  repeat constructor; cbn; rewrite ?elem_of_cons, ?elem_of_nil; naive_solver.
Qed.
Print Assumptions C100_inter_refuted.
(** A power of two of threads and at least twice as many distinct points: the only polynomial of its length through the points, whatever the schedule. *)
Theorem C100_inter_partial K sc1 sc2 sc3 sch1 sch2 sch3 k pts y : isField K -> 2 * 2 ^ k <= length pts -> length y = length pts -> NoDup pts ->
  exists p, interpolateZp K sc1 sc2 sc3 sch1 sch2 sch3 (2 ^ k) pts y = Done p /\ normal K p /\ length p <= length pts /\ map (evalAt K p) pts = y /\
    forall q, normal K q -> length q <= length pts -> map (evalAt K q) pts = y -> q = p.
Proof. exact (inter_unique K sc1 sc2 sc3 sch1 sch2 sch3 k pts y). Qed.
Print Assumptions C100_inter_partial.
(** No other run succeeds. *)
Theorem C100_inter_fails K sc1 sc2 sc3 sch1 sch2 sch3 T pts y : isField K -> 0 < T -> length y = length pts ->
  (length pts < 2 * T -> interpolateZp K sc1 sc2 sc3 sch1 sch2 sch3 T pts y = UB) /\
  (2 * T <= length pts -> (forall k, T <> 2 ^ k) \/ ¬ NoDup pts -> interpolateZp K sc1 sc2 sc3 sch1 sch2 sch3 T pts y = Thrown []).
Proof. exact (inter_fails K sc1 sc2 sc3 sch1 sch2 sch3 T pts y). Qed.
Print Assumptions C100_inter_fails.
(** The prepared tree serves several value vectors, with another number of threads and a dirty array. *)
Theorem C100_reuse K sc1 sc2 sc3 sch1 sch2 sch3 k k' pts y old M a : isField K -> 2 * 2 ^ k <= length pts -> 2 * 2 ^ k' <= length pts -> length y = length pts -> NoDup pts -> length old = length pts - 1 ->
  prepare K sc1 sc2 sch1 sch2 (2 ^ k) pts = Done (M, a) -> exists p, interpolateWith K sc3 sch3 (2 ^ k') y a M old = Done p /\ length p <= length pts /\ map (evalAt K p) pts = y.
Proof. exact (inter_reuse K sc1 sc2 sc3 sch1 sch2 sch3 k k' pts y old M a). Qed.
Print Assumptions C100_reuse.
(** A tree and inverses for one point, whatever they hold, give no polynomial: the loop over the leaves goes on below the first one. *)
Theorem C100_single K sc sch T v c M old : interpolateWith K sc sch T [v] [c] M old = UB /\ interpolateWith K sc sch T [] [] M old = UB.
Proof. by split. Qed.
Print Assumptions C100_single.
Example C100_example : interpolateZp F17 [1; 1; 3; 0; 2; 2] [0; 3; 3; 1] [1; 0] (fun i => [i; 1]) (fun i => [2; i]) (fun _ => []) 4 (pts17 9) [Z9; Z4; Z12; Z11; Z10; Z10; Z6; Z0; Z6] = Done [Z4; Z0; Z2; Z16; Z5] /\ NoDup (pts17 9).
Proof. split; [by vm_compute|]. repeat constructor; cbn; rewrite ?elem_of_cons, ?elem_of_nil; naive_solver. Qed.

(** * C101: the threads do not race *)
Theorem C101_race T total subs i : 0 < T -> genSubs T total (T - 1) = Some subs ->
  noRace (fun v => [LEFT v; RIGHT v]) subs /\ noRace (fun v => [PAPA v]) subs /\
  noRace (fun v => [LEFT v; RIGHT v]) (map (fun j => [j]) (levelNodes i)) /\ (0 < i -> noRace (fun v => [PAPA v]) (map (fun j => [j]) (levelNodes i))).
Proof. exact (race_ok T total subs i). Qed.
Print Assumptions C101_race.
(** The union of the threads is every node from [T - 1] on, once. *)
Theorem C101_cover T total subs v : 0 < T -> 2 * T - 1 <= total -> genSubs T total (T - 1) = Some subs -> NoDup (concat subs) /\ (v ∈ concat subs <-> T - 1 <= v < total).
Proof. exact (cover_ok T total subs v). Qed.
Print Assumptions C101_cover.
Example C101_example : genSubs 3 12 2 = Some [[2; 5; 6; 11]; [3; 7; 8]; [4; 9; 10]] /\ genSubs 4 7 3 = Some [[3]; [4]; [5]; [6]].
Proof. split; by vm_compute. Qed.
