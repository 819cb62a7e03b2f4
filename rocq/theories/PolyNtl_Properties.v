(** Property theorems about polyNTL (C121 - C123) and its use in PRTY (C94, C96). *)
From Verif Require Import Base Partition_Model Ecdh_Model File_Model File_Spec Balanced_Model Balanced_Spec PolyTree_Model PolyTree_Spec
  Prty_Model Prty_Spec Prty_Proofs PolyNtl_Model PolyNtl_Spec PolyNtl_Field PolyNtl_Proofs PolyNtl_Proofs2.
Local Open Scope nat_scope.

(** The field of one byte, and rows in it. *)
Definition t8 : tower := twAt 3.
Definition K8 : fops := twK t8.
Definition rep8 : fT K8 -> N := twRep t8.
Definition of8 : N -> fT K8 := twOf t8.
Lemma field8 : byteField K8 rep8 of8 1.
Proof. exact (tower_bytes 0). Qed.
Definition row1 (v : N) : list N := [v; 0; 0; 0]%N.
Lemma row1_fits v : (v < 256)%N -> rowFitsB 1 (row1 v).
Proof. intros H. exists v, 0%N, 0%N, 0%N. split_and!; try done; [|rewrite !N.mul_0_r, !N.add_0_r; done]. eapply N.lt_trans; [exact H|done]. Qed.
Lemma point1_fits x : (x < 256)%N -> pointFits 1 x.
Proof. intros H. split; [eapply N.lt_trans; [exact H|done]|done]. Qed.
(** Random points 200, 201, ... with values 7, 8, ... *)
Definition rnd8 (i : nat) : fT K8 * fT K8 := (of8 (200 + N.of_nat i), of8 (7 + N.of_nat i)).

(** * C121: interpolation and evaluation agree *)

(** Evaluation of the coefficients (followed by any number of zeros, as in the sender's array) at any list of points gives at each point of the interpolation its row. *)
Theorem C121_eval K rep ofN B rnd degree setX setY k zs : byteField K rep ofN B -> B <= 64 -> length setY = length setX ->
  Forall (pointFits B) setX -> Forall (rowFitsB B) setY -> NoDup (setX ++ map (fun i => rep (rnd i).1) (seq 0 (S degree - length setX))) -> Forall (pointFits B) zs ->
  exists cs vs, superCoeffs K rep ofN B rnd degree setX setY = Done cs /\ length cs <= Nat.max (S degree) (length setX) /\
    evalSuper K rep ofN B (cs ++ replicate k (rep (f0 K))) zs [] = Done vs /\ length vs = length zs /\
    forall j m x, setX !! j = Some x -> zs !! m = Some x -> vs !! m = setY !! j.
Proof. intros HF. exact (super_evals K rep ofN B HF rnd degree setX setY k zs). Qed.
Print Assumptions C121_eval.
(** Otherwise NTL raises an error. *)
Theorem C121_throws K rep ofN B rnd degree setX setY : byteField K rep ofN B -> B <= 64 -> length setY = length setX ->
  Forall (pointFits B) setX -> Forall (rowFitsB B) setY -> ¬ NoDup (setX ++ map (fun i => rep (rnd i).1) (seq 0 (S degree - length setX))) ->
  superCoeffs K rep ofN B rnd degree setX setY = Thrown [].
Proof. intros HF. exact (super_dup K rep ofN B HF rnd degree setX setY). Qed.
Print Assumptions C121_throws.
(** Two points and two random ones; the last point evaluated is not among them. The second set has a random point twice. *)
Example C121_example : byteField K8 rep8 of8 1 /\ Forall (pointFits 1) [5; 77]%N /\ Forall (rowFitsB 1) [row1 9; row1 255] /\
  NoDup ([5; 77]%N ++ map (fun i => rep8 (rnd8 i).1) (seq 0 2)) /\
  superCoeffs K8 rep8 of8 1 rnd8 3 [5; 77]%N [row1 9; row1 255] = Done [16; 110; 129; 43]%N /\
  evalSuper K8 rep8 of8 1 [16; 110; 129; 43]%N [77; 5; 6]%N [] = Done [row1 255; row1 9; row1 190] /\
  superCoeffs K8 rep8 of8 1 rnd8 3 [5; 201]%N [row1 9; row1 255] = Thrown [].
Proof.
  split; [exact field8|]. split; [repeat constructor; by apply point1_fits|]. split; [repeat constructor; by apply row1_fits|].
  split; [by apply (bool_decide_eq_true_1 _); vm_compute|]. split; [by vm_compute|]. split; by vm_compute.
Qed.

(** * C122: interpolation hidden by a random polynomial *)

Theorem C122_pad K rep ofN B rnd degree setX setY : byteField K rep ofN B -> B <= 16 -> length setY = length setX -> 0 < length setX <= degree ->
  Forall (pointFits B) setX -> Forall (pointFits B) setY -> NoDup setX ->
  exists cs, blkCoeffsPad K rep ofN B rnd degree setX setY = Done cs /\ length cs <= S degree /\ evalBlks K rep ofN B cs setX [] = Done setY.
Proof. intros HF. exact (pad_ok K rep ofN B HF rnd degree setX setY). Qed.
Print Assumptions C122_pad.
(** Each polynomial of that degree through the points comes from exactly one choice of the random coefficients: the polynomial is uniform among them. *)
Theorem C122_uniform K rep ofN B degree setX setY cs : byteField K rep ofN B -> B <= 16 -> length setY = length setX -> 0 < length setX <= degree ->
  Forall (pointFits B) setX -> Forall (pointFits B) setY -> NoDup setX ->
  length cs <= S degree -> Forall (fun c => c < 2 ^ (8 * N.of_nat B))%N cs -> last cs <> Some (rep (f0 K)) -> evalBlks K rep ofN B cs setX [] = Done setY ->
  exists d, length d = degree - length setX + 1 /\ forall rnd, blkCoeffsPad K rep ofN B rnd degree setX setY = Done cs <-> map rnd (seq 0 (degree - length setX + 1)) = d.
Proof. intros HF. exact (pad_unique K rep ofN B HF degree setX setY cs). Qed.
Print Assumptions C122_uniform.
Definition dummy8 (i : nat) : fT K8 := of8 (3 + 10 * N.of_nat i)%N.
Example C122_example : byteField K8 rep8 of8 1 /\ Forall (pointFits 1) [5; 77]%N /\ Forall (pointFits 1) [9; 255]%N /\ NoDup [5; 77]%N /\
  blkCoeffsPad K8 rep8 of8 1 dummy8 3 [5; 77]%N [9; 255]%N = Done [0; 108; 157; 13]%N /\ evalBlks K8 rep8 of8 1 [0; 108; 157; 13]%N [5; 77]%N [] = Done [9; 255]%N /\
  last [0; 108; 157; 13]%N <> Some (rep8 (f0 K8)).
Proof.
  split; [exact field8|]. split; [repeat constructor; by apply point1_fits|]. split; [repeat constructor; by apply point1_fits|].
  split; [by apply (bool_decide_eq_true_1 _); vm_compute|]. split; [by vm_compute|]. split; [by vm_compute|]. by vm_compute.
Qed.

(** * C123: the exchange of the polynomials of several bins *)

(** Two bins of two items. The rows of the first bin are equal: its polynomial has one coefficient, the coefficients of the second bin move up in the buffer,
    and the sender reads other polynomials. *)
Theorem C123_exchange_refuted : exists K rep ofN B rnd d bins theirs vss,
  byteField K rep ofN B /\ B <= 64 /\ 0 < d /\ length theirs = length bins /\ Forall (Forall (pointFits B)) theirs /\
  (forall i bin, bins !! i = Some bin -> binOk K rep B (rnd i) d bin) /\ exchange K rep ofN B rnd d bins theirs = Done vss /\
  exists i j bin x r zs m vs, bins !! i = Some bin /\ bin.1 !! j = Some x /\ bin.2 !! j = Some r /\ theirs !! i = Some zs /\ zs !! m = Some x /\
    vss !! i = Some vs /\ vs !! m <> Some r.
Proof.
  set (bins := [([5; 77]%N, [row1 9; row1 9]); ([6; 80]%N, [row1 1; row1 2])]). set (theirs := [[5; 77]; [6; 80]]%N).
  exists K8, rep8, of8, 1, (fun _ => rnd8), 2, bins, theirs. eexists.
  split; [exact field8|]. split; [lia|]. split; [lia|]. split; [done|]. split; [repeat constructor; by apply point1_fits|]. split.
  { intros i bin Hb. unfold bins in Hb. destruct i as [|[|i]]; cbn in Hb; [injection Hb as <-|injection Hb as <-|done].
    all: unfold binOk; cbn [fst snd]; split; [done|]; split; [done|]; split; [repeat constructor; by apply point1_fits|]; split; [repeat constructor; by apply row1_fits|].
    all: by apply (bool_decide_eq_true_1 _); vm_compute. }
  split; [vm_compute; reflexivity|]. exists 1, 0, ([6; 80]%N, [row1 1; row1 2]), 6%N, (row1 1), [6; 80]%N, 0. eexists.
  split; [done|]. split; [done|]. split; [done|]. split; [done|]. split; [done|]. split; [vm_compute; reflexivity|]. by vm_compute.
Qed.
Print Assumptions C123_exchange_refuted.
(** Holds if no polynomial with fewer coefficients passes through the points of a bin. *)
Theorem C123_exchange_partial K rep ofN B rnd d bins theirs : byteField K rep ofN B -> B <= 64 -> 0 < d -> length theirs = length bins -> Forall (Forall (pointFits B)) theirs ->
  (forall i bin, bins !! i = Some bin -> binOk K rep B (rnd i) d bin /\ binFull K rep ofN (rnd i) d bin) ->
  exists vss, exchange K rep ofN B rnd d bins theirs = Done vss /\ length vss = length bins /\
    forall i j bin x r zs m, bins !! i = Some bin -> bin.1 !! j = Some x -> bin.2 !! j = Some r -> theirs !! i = Some zs -> zs !! m = Some x -> exists vs, vss !! i = Some vs /\ vs !! m = Some r.
Proof. intros HF. exact (exchange_ok K rep ofN B HF rnd d bins theirs). Qed.
Print Assumptions C123_exchange_partial.
Example C123_example : let bins := [([5; 77]%N, [row1 9; row1 8]); ([6]%N, [row1 1])] in let theirs := [[77; 3]; [6; 80]]%N in
  byteField K8 rep8 of8 1 /\ (forall i bin, bins !! i = Some bin -> binOk K8 rep8 1 rnd8 2 bin /\ binFull K8 rep8 of8 rnd8 2 bin) /\
  exchange K8 rep8 of8 1 (fun _ => rnd8) 2 bins theirs = Done [[row1 8; row1 224]; [row1 1; row1 91]].
Proof.
  intros bins theirs. split; [exact field8|]. split; [|by vm_compute].
  intros i bin Hb. unfold bins in Hb. destruct i as [|[|i]]; cbn in Hb; [injection Hb as <-|injection Hb as <-|done].
  all: split; [unfold binOk; cbn [fst snd]; split; [done|]; split; [by repeat constructor|]; split; [repeat constructor; by apply point1_fits|]; split; [repeat constructor; by apply row1_fits|];
    by apply (bool_decide_eq_true_1 _); vm_compute|].
  all: intros q Hq [H H2]; rewrite (map_ext _ _ (fun x => f_equal blocksOf (f_equal rep8 (field_short K8 (proj1 field8) q Hq (of8 x))))) in H; cbn [fst snd map] in H.
  - clear H2. generalize dependent (blocksOf (rep8 match q with [] => f0 K8 | a :: _ => a end)). intros v H. injection H as H1 H2. rewrite H1 in H2. discriminate H2.
  - specialize (H2 0 ltac:(cbn; lia)). rewrite (field_short K8 (proj1 field8) q Hq) in H2. rewrite H2 in H. clear -H. vm_compute in H. discriminate H.
Qed.

(** * C94, C96: PRTY with these polynomials *)

Theorem C94_ntl K rep ofN B rnd P blks x n : byteField K rep ofN B -> fieldSizeOf n <= 8 * B <= 512 -> freshDummies K rep rnd -> interp P = ntlInterp K rep ofN B rnd ->
  Forall (fun y => y < 2 ^ 128)%N blks -> NoDup blks -> x ∈ blks ->
  sendMask P (fieldSizeOf n) (interp P (binPoints P (fieldSizeOf n) blks) x) x = recvMask P (fieldSizeOf n) x.
Proof. intros HF HB Hr Hi. apply bin_mask, (ntl_interpolates K rep ofN B HF P (fieldSizeOf n) rnd); try done; [apply fieldSize_range|lia|lia|apply fieldSize_range]. Qed.
Print Assumptions C94_ntl.

Theorem C96_ntl_partial K rep ofN B rnd P ordB enc rs lo ord T R S :
  let F := fieldSizeOf (N.of_nat (length R)) in
  byteField K rep ofN B -> F <= 8 * B <= 512 -> freshDummies K rep rnd -> interp P = ntlInterp K rep ofN B rnd ->
  anyOrder ordB -> lightLoads enc R -> Forall (fun x => x < 2 ^ 128)%N R -> NoDup R -> noNeighbours R -> masksDistinct P F R -> (forall es, lo es ≡ₚ es) ->
  (0 < T)%nat -> (N.of_nat (length S) * N.of_nat T < 2 ^ 64)%N -> (2 ^ 17 <= N.of_nat (length S) * N.of_nat (length R) < 2 ^ 64)%N ->
  exists bins hb out, balanced ordB enc 40 1 R rs = Done bins /\ hashBytes (N.of_nat (length S)) (N.of_nat (length R)) = Some hb /\
    prtyRun P ordB enc rs lo ord T R S = Done out /\
    (forall i x, R !! i = Some x -> x ∈ S -> i ∈ out) /\
    (noFalseMatch P F enc R bins S hb -> forall i, i ∈ out -> exists x, R !! i = Some x /\ x ∈ S).
Proof.
  intros F HF HB Hr Hi H1 H2 H3 H4 H5. apply (run_light P ordB enc rs lo ord T R S); try done.
  apply (ntl_interpolates K rep ofN B HF P F rnd); try done; [lia|lia|apply fieldSize_range].
Qed.
Print Assumptions C96_ntl_partial.
(** The field of 64 bytes, with random points beyond the blocks. *)
Definition t512 : tower := twAt 9.
Definition rnd512 (pts : list (N * list N)) (i : nat) : fT (twK t512) * fT (twK t512) := (twOf t512 (2 ^ 128 + N.of_nat i), twOf t512 (N.of_nat i)).
Example C94_ntl_example : byteField (twK t512) (twRep t512) (twOf t512) 64 /\ freshDummies (twK t512) (twRep t512) rnd512 /\ forall n, fieldSizeOf n <= 8 * 64 <= 512.
Proof.
  split; [exact (tower_bytes 6)|]. split; [|intros n; pose proof (fieldSize_range n); lia]. intros pts Hnd Hlt.
  assert (forall i, i < 40 -> twRep t512 (twOf t512 (2 ^ 128 + N.of_nat i)) = (2 ^ 128 + N.of_nat i)%N) as Hrep.
  { intros i Hi. apply (tower_bytes 6). apply N.lt_trans with (2 ^ 128 + 40)%N; [lia|]. done. }
  rewrite (map_ext_in _ (fun i => (2 ^ 128 + N.of_nat i)%N)); [|intros i Hi; apply in_seq in Hi; apply Hrep; lia].
  apply NoDup_app. split; [done|]. split.
  - intros x Hx Hx'. apply elem_of_list_fmap in Hx as (p & -> & Hp). rewrite Forall_forall in Hlt. specialize (Hlt p Hp). apply elem_of_list_fmap in Hx' as (i & E & _). lia.
  - apply NoDup_fmap; [intros a b E; lia|apply NoDup_seq].
Qed.
