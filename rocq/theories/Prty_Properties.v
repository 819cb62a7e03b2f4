(** Property theorems about PRTY (C57, C94 - C98). *)
From Verif Require Import Base Partition_Model Ecdh_Model File_Model File_Spec Balanced_Model Balanced_Spec Prty_Model Prty_Spec Prty_Proofs.

(** * C94: the two masks of an item *)

Theorem C94_masks P blks x n : interpolates P (fieldSizeOf n) -> Forall (fun y => y < 2 ^ 128) blks -> NoDup blks -> x ∈ blks ->
  sendMask P (fieldSizeOf n) (interp P (binPoints P (fieldSizeOf n) blks) x) x = recvMask P (fieldSizeOf n) x.
Proof. apply bin_mask, fieldSize_range. Qed.
Print Assumptions C94_masks.

(** The rows have one bit of each cipher and are not changed by the cut to the field size. *)
Theorem C94_rows P n x i : (i < 512)%nat -> let F := fieldSizeOf n in
  rowBit (truncRow F (prfRow (aesT P) F x)) i = ((i <? F)%nat && N.testbit (aesT P i x) (N.of_nat (i mod 128))).
Proof. intros Hi F. unfold F. rewrite trunc_id by apply fieldSize_range. by apply row_bits. Qed.
Print Assumptions C94_rows.

(** A polynomial is given by its points. *)
Definition tableInterp (pts : list (N * list N)) (x : N) : list N :=
  match find (fun p : N * list N => p.1 =? x) pts with Some p => p.2 | None => [0; 0; 0; 0] end.
Definition exP : prty := mkPrty (fun i x => if (i <? 128)%nat then x else 0) (fun i x => if (i <? 128)%nat then N.lxor x (N.of_nat i) else 2 ^ 128 - 1) Nat.odd (fun b => b) tableInterp.
Lemma exP_interpolates F : interpolates exP F.
Proof.
  intros pts x r Hnd _ Hin. cbn [interp exP]. unfold tableInterp. induction pts as [|p pts IH]; [by apply elem_of_nil in Hin|]. cbn [find].
  cbn [map] in Hnd. apply NoDup_cons in Hnd as [Hp Hnd]. apply elem_of_cons in Hin as [<-|Hin]; [by rewrite N.eqb_refl|].
  destruct (N.eqb_spec p.1 x) as [E|E]; [|by apply IH]. exfalso. apply Hp. rewrite E. by apply (elem_of_list_fmap_1 fst) in Hin.
Qed.
(** The last item is not in the bin. *)
Example C94_example : map (fun x => sendMask exP 416 (interp exP (binPoints exP 416 [5; 9; 2 ^ 100]) x) x) [5; 9; 2 ^ 100; 6] = map (recvMask exP 416) [5; 9; 2 ^ 100] ++ [2863311532] /\ Forall (fun y => y < 2 ^ 128) [5; 9; 2 ^ 100] /\
  recvMask exP 416 6 = 6 /\ rowBit (prfRow (aesU exP) 416 (2 ^ 100)) 100 = true /\ rowBit (prfRow (aesU exP) 416 (2 ^ 100)) 228 = true /\ rowBit (prfRow (aesU exP) 416 (2 ^ 100)) 101 = false.
Proof. split; [vm_compute; reflexivity|]. split; [repeat constructor; by vm_compute|]. by vm_compute. Qed.

(** * C95: matching for large sets *)

Theorem C95_match ord step hb T n es gh : (8 <= hb)%nat -> keysDistinct es -> (0 < step)%nat -> (0 < T)%nat -> N.of_nat n * N.of_nat T < 2 ^ 64 ->
  length (gh 0) = n -> length (gh 1) = n ->
  exists out, matchAll ord step hb T n es gh = Done out /\ out ≡ₚ concat (map (hits es hb 0) (gh 0)) ++ concat (map (hits es hb 1) (gh 1)).
Proof. exact (match_large ord step hb T n es gh). Qed.
Print Assumptions C95_match.

Definition exEs : list entry := [(0, (7 + 2 ^ 70, 0%nat)); (1, (8, 1%nat)); (0, (9, 2%nat)); (1, (10, 3%nat)); (1, (7, 4%nat))].
Definition exGh (h : N) : list N := if h =? 0 then [1; 9; 2; 7 + 2 ^ 70; 7] else [10; 5; 9; 7; 11].
(** Two threads, steps of two. Entry 0 has one partner (of the two that agree in eight bytes). *)
Example C95_example : keysDistinct exEs /\ matchAll (fun _ l => l) 2 9 2 5 exEs exGh = Done [2; 3; 0; 4]%nat.
Proof. split; [|by vm_compute]. unfold keysDistinct. apply (bool_decide_eq_true_1 _). by vm_compute. Qed.

(** * C57: matching for small sets *)

(** Whenever two local masks have the same hash number the quadratic comparison reads beyond the message. *)
Theorem C57_overread ord step hb T n es gh h : (hb < 8)%nat -> (0 < hb)%nat -> keysDistinct es -> (forall h m, ord h m ≡ₚ m) -> h < 2 ->
  (2 <= length (filter (fun e : entry => e.1 = h) es))%nat -> (0 < step)%nat -> (0 < T)%nat -> (0 < n)%nat -> N.of_nat n * N.of_nat T < 2 ^ 64 ->
  length (gh 0%N) = n -> matchAll ord step hb T n es gh = UB.
Proof. exact (match_over ord step hb T n es gh h). Qed.
Print Assumptions C57_overread.

Definition exId (b : nat) (l : list nat) := l.
Lemma exId_ok : anyOrder exId.
Proof. intros b l. reflexivity. Qed.
(** Two sets of two items with one common item. *)
Theorem C57_small_refuted : exists P ordB enc rs lo ord T R S, anyOrder ordB /\ (forall es, lo es ≡ₚ es) /\ (forall h m, ord h m ≡ₚ m) /\ (0 < T)%nat /\
  interpolates P (fieldSizeOf (N.of_nat (length R))) /\ NoDup R /\ NoDup S /\ noNeighbours R /\ (exists x, x ∈ R /\ x ∈ S) /\ prtyRun P ordB enc rs lo ord T R S = UB.
Proof.
  exists exP, exId, (fun x => x), [], (fun es => es), (fun _ m => m), 1%nat, [20; 30], [30; 40]. split; [apply exId_ok|]. split; [intros; reflexivity|]. split; [intros; reflexivity|]. split; [lia|].
  split; [apply exP_interpolates|]. split; [by apply (bool_decide_eq_true_1 _); vm_compute|]. split; [by apply (bool_decide_eq_true_1 _); vm_compute|].
  split; [intros x Hx; repeat (apply elem_of_cons in Hx as [-> |Hx]; [by apply (bool_decide_eq_true_1 _); vm_compute|]); by apply elem_of_nil in Hx|].
  split; [exists 30; split; by apply (bool_decide_eq_true_1 _); vm_compute|]. vm_compute. reflexivity.
Qed.
Print Assumptions C57_small_refuted.

(** With at most one local mask per hash number the comparison is exact. *)
Theorem C57_small_partial ord step hb T n es gh : (hb < 8)%nat -> keysDistinct es -> (forall h m, ord h m ≡ₚ m) ->
  (length (filter (fun e : entry => e.1 = 0%N) es) <= 1)%nat -> (length (filter (fun e : entry => e.1 = 1%N) es) <= 1)%nat -> (0 < step)%nat -> (0 < T)%nat -> N.of_nat n * N.of_nat T < 2 ^ 64 ->
  length (gh 0) = n -> length (gh 1) = n ->
  exists out, matchAll ord step hb T n es gh = Done out /\ out ≡ₚ concat (map (hits es hb 0) (gh 0)) ++ concat (map (hits es hb 1) (gh 1)).
Proof. exact (match_single ord step hb T n es gh). Qed.
Print Assumptions C57_small_partial.
Example C57_example : matchAll (fun _ l => l) 2 6 2 5 (take 2 exEs) exGh = Done [0; 0]%nat /\ matchAll (fun _ l => l) 2 6 2 5 [(0, (9, 5%nat)); (1, (5, 6%nat))] exGh = Done [5; 6]%nat /\
  matchAll (fun _ l => l) 2 6 2 5 exEs exGh = UB.
Proof. by vm_compute. Qed.

(** * C96: the run *)

Lemma exT_row x : prfRow (aesT exP) 416 x = [x mod 2 ^ 128; 0; 0; 0].
Proof.
  unfold prfRow. change (seq 0 4) with [0; 1; 2; 3]%nat. cbn [map]. rewrite prfBlk_item; [|lia|intros k Hk; change (aesT exP k x) with (if (k <? 128)%nat then x else 0); destruct (Nat.ltb_spec k 128); [done|lia]].
  assert (forall j, (0 < j < 4)%nat -> prfBlk (aesT exP) 416 j x = 0) as H by (intros [|[|[|[|j]]]] Hj; try lia; by vm_compute). by rewrite !H by lia.
Qed.
Lemma exU_bit k x : (k < 128)%nat -> N.testbit (N.lxor x (N.of_nat k)) (N.of_nat k) = N.testbit x (N.of_nat k).
Proof. intros Hk. destruct k as [|k]; [by rewrite N.lxor_0_r|]. rewrite N.lxor_spec, (N.bits_above_log2 (N.of_nat (S k)) (N.of_nat (S k))); [by rewrite xorb_false_r|]. apply N.log2_lt_lin. lia. Qed.
Lemma exU_row x : prfRow (aesU exP) 416 x = [x mod 2 ^ 128; 2 ^ 128 - 1; 2 ^ 128 - 1; 2 ^ 32 - 1].
Proof.
  unfold prfRow. change (seq 0 4) with [0; 1; 2; 3]%nat. cbn [map]. rewrite prfBlk_item; [|lia|intros k Hk; change (aesU exP k x) with (if (k <? 128)%nat then N.lxor x (N.of_nat k) else 2 ^ 128 - 1); destruct (Nat.ltb_spec k 128); [by apply exU_bit|lia]].
  replace (prfBlk (aesU exP) 416 1 x) with (2 ^ 128 - 1) by by vm_compute. replace (prfBlk (aesU exP) 416 2 x) with (2 ^ 128 - 1) by by vm_compute. by replace (prfBlk (aesU exP) 416 3 x) with (2 ^ 32 - 1) by by vm_compute.
Qed.
Definition odds : N := 226854911280625642308916404954512140970.
Lemma exQ_row x : prfRow (aesQ exP) 416 x = [x mod 2 ^ 128; odds; odds; 2863311530].
Proof.
  unfold prfRow. change (seq 0 4) with [0; 1; 2; 3]%nat. cbn [map]. rewrite prfBlk_item; [|lia|intros k Hk; change (aesQ exP k x) with ((if Nat.odd k then aesU exP k else aesT exP k) x); destruct (Nat.odd k); [change (aesU exP k x) with (if (k <? 128)%nat then N.lxor x (N.of_nat k) else 2 ^ 128 - 1)|change (aesT exP k x) with (if (k <? 128)%nat then x else 0)]; destruct (Nat.ltb_spec k 128); [by apply exU_bit|lia|done|lia]].
  replace (prfBlk (aesQ exP) 416 1 x) with odds by by vm_compute. replace (prfBlk (aesQ exP) 416 2 x) with odds by by vm_compute. by replace (prfBlk (aesQ exP) 416 3 x) with 2863311530 by by vm_compute.
Qed.
Lemma ex_recv x : recvMask exP 416 x = x mod 2 ^ 128.
Proof. unfold recvMask. rewrite exT_row. unfold truncRow, maskOfRow. cbn [imap map foldr henc exP]. cbn. rewrite !N.lxor_0_r. done. Qed.
(** Outside of its bin an item gets another mask. *)
Lemma ex_send x : sendMask exP 416 [0; 0; 0; 0] x = N.lxor (x mod 2 ^ 128) 2863311530 /\ sendMask exP 416 (xorRows (prfRow (aesT exP) 416 x) (prfRow (aesU exP) 416 x)) x = x mod 2 ^ 128.
Proof.
  unfold sendMask. rewrite exQ_row, exT_row, exU_row. replace (map (choiceBlk exP 416) (seq 0 4)) with [odds; odds; odds; 2863311530] by by vm_compute.
  unfold truncRow, maskOfRow, xorRows. replace (truncBlk 416) with (2 ^ 32 - 1) by by vm_compute. cbn [zip_with imap map foldr henc exP]. generalize (x mod 2 ^ 128). intros y. rewrite N.lxor_nilpotent. split.
  - replace (N.lxor y (N.land 0 odds)) with y by (rewrite N.land_0_l; by rewrite N.lxor_0_r). f_equal; by vm_compute.
  - replace (N.lxor y (N.land 0 odds)) with y by (rewrite N.land_0_l; by rewrite N.lxor_0_r). transitivity (N.lxor y 0); [|apply N.lxor_0_r]. f_equal; by vm_compute.
Qed.
Lemma ex_interp blks x : interp exP (binPoints exP 416 blks) x = (if existsb (N.eqb x) blks then xorRows (prfRow (aesT exP) 416 x) (prfRow (aesU exP) 416 x) else [0; 0; 0; 0]).
Proof.
  cbn [interp exP]. unfold tableInterp, binPoints. induction blks as [|b blks IH]; [done|]. cbn [map find existsb fst]. rewrite (N.eqb_sym b x). destruct (N.eqb_spec x b) as [<-|Hne]; [done|]. exact IH.
Qed.
Lemma ex_sender enc R bins h y : let b := N.to_nat (itemBin enc (binCount (N.of_nat (length R)) 40 1) y h) in
  senderMask exP 416 enc R bins h y = if existsb (N.eqb (point h y)) (binBlks R (nth b bins [])) then point h y mod 2 ^ 128 else N.lxor (point h y mod 2 ^ 128) 2863311530.
Proof. cbn zeta. unfold senderMask. rewrite ex_interp. destruct (existsb _ _); [exact (proj2 (ex_send (point h y)))|exact (proj1 (ex_send (point h y)))]. Qed.
Definition masksCheck (R : list N) : bool :=
  let ks := concat (map (fun x => [(x, x mod 2 ^ 64); (x, N.lxor x 1 mod 2 ^ 64)]) R) in
  forallb (fun a : N * N => forallb (fun b : N * N => if a.2 =? b.2 then a.1 =? b.1 else true) ks) ks.
Lemma masksCheck_ok R : masksCheck R = true -> masksDistinct exP 416 R.
Proof.
  intros H h h' x y Hh Hh' Hx Hy E. rewrite !ex_recv in E. unfold masksCheck in H. set (ks := concat _) in H.
  assert (forall h x, h < 2 -> x ∈ R -> In (x, point h x mod 2 ^ 64) ks) as Hk.
  { clear. intros h x Hh Hx. apply elem_of_list_In, elem_of_concat. eexists. split; [|apply (elem_of_list_fmap_1 (fun x => [(x, x mod 2 ^ 64); (x, N.lxor x 1 mod 2 ^ 64)])), Hx].
    assert (h = 0 \/ h = 1) as [-> | ->] by lia; [left|right; left]. }
  assert (forall z, z mod 2 ^ 128 mod 2 ^ 64 = z mod 2 ^ 64) as Hm by (intros z; change (2 ^ 128) with (2 ^ 64 * 2 ^ 64); rewrite N.mod_mul_r by done; rewrite N.mul_comm, N.mod_add by done; by apply N.mod_mod).
  rewrite !Hm in E.
  rewrite forallb_forall in H. specialize (H _ (Hk h x Hh Hx)). rewrite forallb_forall in H. specialize (H _ (Hk h' y Hh' Hy)). cbn [fst snd] in H.
  rewrite E, N.eqb_refl in H. by apply N.eqb_eq.
Qed.
Lemma neighboursCheck R : forallb (fun x => negb (existsb (N.eqb (N.lxor x 1)) R)) R = true -> noNeighbours R.
Proof.
  intros H x Hx Hin. rewrite forallb_forall in H. specialize (H x). rewrite negb_true_iff in H. apply elem_of_list_In in Hx. specialize (H Hx).
  assert (existsb (N.eqb (N.lxor x 1)) R = true) as E; [|congruence]. apply existsb_exists. exists (N.lxor x 1). split; [by apply elem_of_list_In|apply N.eqb_refl].
Qed.

(** The two bins of each item. The first pass puts [2 + k] items into bin 0. *)
Definition exCands (k : nat) : list (N * N) := [(1, 0); (1, 1); (1, 0)] ++ replicate k (0, 0) ++ concat (map (fun b => replicate 39 (b, b)) [2; 3; 4; 5; 6]).
Definition exR (k : nat) : list N := imap (fun i p => 28 * N.of_nat i + p.1 + 2 ^ 64 * p.2) (exCands k).
Definition exS (k n : nat) : list N := [1; 2 ^ 64 + 29; 57] ++ take 100 (rev (exR k)) ++ map (fun i => 28 * (1000 + N.of_nat i) + 2 ^ 64) (seq 0 n).
Definition exBins : list (list bitem) := map (map (pair 1)) [seq 3 39; [1; 0; 2]%nat; seq 42 39; seq 81 39; seq 120 39; seq 159 39; seq 198 39].

(** 41 items in bin 0; items 0 and 2 are moved to bin 1 and keep hash number 1. They are common items and are not found. *)
Theorem C96_run_refuted : exists P ordB enc rs lo ord T R S out,
  anyOrder ordB /\ NoDup R /\ noNeighbours R /\ interpolates P (fieldSizeOf (N.of_nat (length R))) /\ masksDistinct P (fieldSizeOf (N.of_nat (length R))) R /\
  (forall es, lo es ≡ₚ es) /\ (0 < T)%nat /\ N.of_nat (length S) * N.of_nat T < 2 ^ 64 /\ 2 ^ 17 <= N.of_nat (length S) * N.of_nat (length R) < 2 ^ 64 /\
  prtyRun P ordB enc rs lo ord T R S = Done out /\ exists i x, R !! i = Some x /\ x ∈ S /\ i ∉ out.
Proof.
  assert (balanced exId (fun x => x) 40 1 (exR 39) [0; 0; 0; 0; 0; 0; 0; 0] = Done exBins) as Eb by by vm_compute.
  assert (fieldSizeOf (N.of_nat (length (exR 39))) = 416%nat) as EF by by vm_compute.
  assert (NoDup (exR 39)) as HR by (by apply (bool_decide_eq_true_1 _); vm_compute).
  assert (noNeighbours (exR 39)) as HN by (apply neighboursCheck; by vm_compute).
  assert (masksDistinct exP 416 (exR 39)) as HM by (apply masksCheck_ok; by vm_compute).
  assert (2 ^ 17 <= N.of_nat (length (exS 39 451)) * N.of_nat (length (exR 39)) < 2 ^ 64) as Hn by (split; [apply N.leb_le|]; by vm_compute).
  assert (N.of_nat (length (exS 39 451)) * N.of_nat 3 < 2 ^ 64) as Hw by by vm_compute.
  assert (forall it, it ∈ concat exBins -> it.1 = 1) as H1 by (intros it Hit; unfold exBins in Hit; rewrite <- concat_map in Hit; by apply elem_of_list_fmap in Hit as (i & -> & _)).
  pose proof (run_all_placed _ _ _ _ _ exId_ok Eb) as HP.
  destruct (run_placed exP exId (fun x => x) [0; 0; 0; 0; 0; 0; 0; 0] (fun es => es) (fun _ m => m) 3 (exR 39) (exS 39 451) exBins) as (hb & out & Ehb & Hhb & Eo & Hin);
    [done|done|intros it Hit; by rewrite (H1 it Hit)|done|done|by rewrite EF|intros; reflexivity|lia|done|done|].
  exists exP, exId, (fun x => x), [0; 0; 0; 0; 0; 0; 0; 0], (fun es => es), (fun _ m => m), 3%nat, (exR 39), (exS 39 451), out. rewrite EF.
  split; [apply exId_ok|]. split; [done|]. split; [done|]. split; [apply exP_interpolates|]. split; [done|]. split; [intros; reflexivity|]. split; [lia|]. split; [done|]. split; [done|]. split; [done|].
  exists 2%nat, 57. split; [reflexivity|]. split; [by apply (bool_decide_eq_true_1 _); vm_compute|]. rewrite Hin, EF. intros (h & y & _ & Hy & it & Hit & E1 & E2 & E). rewrite (H1 it Hit) in E1. subst h.
  rewrite ex_recv, ex_sender in E. assert (hb = 8%nat) as -> by (vm_compute in Ehb; by injection Ehb as <-).
  assert ((let R := exR 39 in let m := binCount (N.of_nat (length R)) 40 1 in forallb (fun y => let b := N.to_nat (itemBin (fun x => x) m y 1) in
    negb (56 =? (if existsb (N.eqb (point 1 y)) (binBlks R (nth b exBins [])) then point 1 y mod 2 ^ 128 else N.lxor (point 1 y mod 2 ^ 128) 2863311530) mod 2 ^ 64)) (exS 39 451)) = true) as Hc by by vm_compute.
  cbv zeta in Hc.
  rewrite forallb_forall in Hc. apply elem_of_list_In in Hy. specialize (Hc y Hy). cbn zeta in Hc. apply negb_true_iff, N.eqb_neq in Hc. apply Hc. change (2 ^ 64) with (2 ^ (8 * N.of_nat 8)). rewrite <- E. by vm_compute.
Qed.
Print Assumptions C96_run_refuted.

(** If the first pass of the allocation keeps to the bound and no two items differ exactly in the last bit, every common item is found, and only common items
    unless masks collide. The sets are so large that the masks have eight bytes. *)
Theorem C96_run_partial P ordB enc rs lo ord T R S :
  let F := fieldSizeOf (N.of_nat (length R)) in
  anyOrder ordB -> lightLoads enc R -> Forall (fun x => x < 2 ^ 128) R -> NoDup R -> noNeighbours R -> interpolates P F -> masksDistinct P F R -> (forall es, lo es ≡ₚ es) ->
  (0 < T)%nat -> N.of_nat (length S) * N.of_nat T < 2 ^ 64 -> 2 ^ 17 <= N.of_nat (length S) * N.of_nat (length R) < 2 ^ 64 ->
  exists bins hb out, balanced ordB enc 40 1 R rs = Done bins /\ hashBytes (N.of_nat (length S)) (N.of_nat (length R)) = Some hb /\
    prtyRun P ordB enc rs lo ord T R S = Done out /\
    (forall i x, R !! i = Some x -> x ∈ S -> i ∈ out) /\
    (noFalseMatch P F enc R bins S hb -> forall i, i ∈ out -> exists x, R !! i = Some x /\ x ∈ S).
Proof. exact (run_light P ordB enc rs lo ord T R S). Qed.
Print Assumptions C96_run_partial.
Example C96_example : lightLoads (fun x => x) (exR 36) /\ Forall (fun x => x < 2 ^ 128) (exR 36) /\ NoDup (exR 36) /\ noNeighbours (exR 36) /\ interpolates exP 416 /\ masksDistinct exP 416 (exR 36) /\ fieldSizeOf (N.of_nat (length (exR 36))) = 416%nat /\
  2 ^ 17 <= N.of_nat (length (exS 36 458)) * N.of_nat (length (exR 36)) < 2 ^ 64 /\ exists x, x ∈ exR 36 /\ x ∈ exS 36 458.
Proof.
  split; [by apply (bool_decide_eq_true_1 _); vm_compute|]. split; [by apply (bool_decide_eq_true_1 _); vm_compute|]. split; [by apply (bool_decide_eq_true_1 _); vm_compute|]. split; [apply neighboursCheck; by vm_compute|]. split; [apply exP_interpolates|].
  split; [apply masksCheck_ok; by vm_compute|]. split; [by vm_compute|]. split; [split; [apply N.leb_le|]; by vm_compute|]. exists 57. split; by apply (bool_decide_eq_true_1 _); vm_compute.
Qed.

(** * C97: the points of a bin *)

(** Items 7 and 6; item 7 is put into bin 1 with hash number 0, item 6 into bin 1 with hash number 1. The cipher is a permutation. *)
Definition exSwap (x : N) : N := if x =? 7 then 3 else if x =? 3 then 7 else if x =? 6 then 2 ^ 64 else if x =? 2 ^ 64 then 6 else x.
Definition exN : list N := [1; 7; 6] ++ map (fun k => 20 + 4 * N.of_nat k) (seq 0 36).
Theorem C97_points_refuted : exists ordB enc rs R bins bin, anyOrder ordB /\ (forall x y, enc x = enc y -> x = y) /\ NoDup R /\ balanced ordB enc 40 1 R rs = Done bins /\ bin ∈ bins /\ ¬ NoDup (binBlks R bin) /\
  forall P lo ord T S, prtyRun P ordB enc rs lo ord T R S = Thrown [].
Proof.
  exists exId, exSwap, [], exN. eexists. exists [(0, 1%nat); (1, 2%nat)]. split; [apply exId_ok|]. split.
  { intros x y. unfold exSwap. repeat (match goal with |- context [?a =? ?b] => destruct (N.eqb_spec a b) end); subst; try done; try congruence; intros E; subst; try done; try lia. }
  split; [by apply (bool_decide_eq_true_1 _); vm_compute|]. split; [vm_compute; reflexivity|]. split; [by apply (bool_decide_eq_true_1 _); vm_compute|].
  split; [by apply (bool_decide_eq_true_1 _); vm_compute|]. intros P lo ord T S. unfold prtyRun. 
  replace (numBinsOf (N.of_nat (length exN)) 40 1) with (Some 2) by (by vm_compute).
  destruct (balanced exId exSwap 40 1 exN []) as [bins| | |] eqn:E; [|by vm_compute in E..].
  replace (forallb (fun bin => bool_decide (NoDup (binBlks exN bin))) bins) with false; [done|]. vm_compute in E. injection E as <-. by vm_compute.
Qed.
Print Assumptions C97_points_refuted.

Theorem C97_points_partial ordB enc rs R bins bin : anyOrder ordB -> NoDup R -> noNeighbours R -> balanced ordB enc 40 1 R rs = Done bins -> bin ∈ bins -> NoDup (binBlks R bin).
Proof. exact (points_nodup ordB enc rs R bins bin). Qed.
Print Assumptions C97_points_partial.
(** The hypothesis on neighbours is met although balancing moves items. *)
Example C97_example : noNeighbours (exR 39) /\ exists bins, balanced exId (fun x => x) 40 1 (exR 39) [0; 0; 0; 0; 0; 0; 0; 0] = Done bins /\
  bins !! 1%nat = Some [(1, 1%nat); (1, 0%nat); (1, 2%nat)] /\ binBlks (exR 39) [(1, 1%nat); (1, 0%nat); (1, 2%nat)] = [2 ^ 64 + 28; 0; 56].
Proof. split; [apply neighboursCheck; by vm_compute|]. eexists. split; [vm_compute; reflexivity|]. by vm_compute. Qed.

(** * C98: the buffer of coefficients *)

(** The first polynomial has degree 1, one less than the others: the coefficients of the second are read for the first. *)
Theorem C98_pack_refuted : exists d cs buf, Forall (fun c => 0 < length c <= d)%nat cs /\ packStep d cs = Some buf /\
  exists i c c', cs !! i = Some c /\ unpackStep d (length cs) buf !! i = Some c' /\ c' ≠ c ++ replicate (d - length c) 0.
Proof.
  exists 3%nat, [[1; 2]; [3; 4; 5]], [1; 2; 3; 4; 5; 0]. split; [repeat constructor; cbn; lia|]. split; [done|].
  exists 0%nat, [1; 2], [1; 2; 3]. split; [done|]. split; [by vm_compute|]. done.
Qed.
Print Assumptions C98_pack_refuted.

Theorem C98_pack_partial d cs : Forall (fun c => length c = d) cs -> packStep d cs = Some (concat cs) /\ unpackStep d (length cs) (concat cs) = cs.
Proof. exact (pack_full d cs). Qed.
Print Assumptions C98_pack_partial.
Example C98_example : packStep 3 [[1; 2; 6]; [3; 4; 5]] = Some [1; 2; 6; 3; 4; 5] /\ unpackStep 3 2 [1; 2; 6; 3; 4; 5] = [[1; 2; 6]; [3; 4; 5]].
Proof. by vm_compute. Qed.
