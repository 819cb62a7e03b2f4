(** Property theorems about what the polynomials of PRTY reveal (C164). *)
From Verif Require Import Base PolyTree_Model PolyTree_Spec Prty_Model Prty_Spec PolyNtl_Model PolyNtl_Spec PolyNtl_Field PolyNtl_Proofs2 PolyNtl_Properties PrtyHide_Spec PrtyHide_Proofs.
Local Open Scope nat_scope.

(** * C164: the polynomial of a bin does not depend on the items of the bin *)

(** The field has [8 * B] bits, the rows have [F]. At the receiver's items the polynomial always has a value of [F] bits. *)
Theorem C164_members_partial K rep ofN B P F rnd d blks k x : byteField K rep ofN B -> B <= 64 ->
  Forall (fun x => x < 2 ^ 128)%N blks -> 384 <= F <= 512 -> F <= 8 * B -> length blks <= S d -> pointsOk K rep rnd (S d) blks -> x ∈ blks ->
  exists cs r, superCoeffs K rep ofN B rnd d (map fst (binPoints P F blks)) (map snd (binPoints P F blks)) = Done cs /\
    evalSuper K rep ofN B (cs ++ replicate k (rep (f0 K))) [x] [] = Done [r] /\ (rowNum r < 2 ^ N.of_nat F)%N.
Proof. intros HF HB. exact (members K rep ofN B HF HB P F rnd d blks k x). Qed.
Print Assumptions C164_members_partial.
(** At any other point each value of the field comes from exactly one value at the first random point: the value there is uniform in the field. *)
Theorem C164_others_partial K rep ofN B rnd d X Y k z v : byteField K rep ofN B -> B <= 64 ->
  length Y = length X -> length X <= d -> Forall (pointFits B) X -> Forall (rowFitsB B) Y -> pointsOk K rep rnd (S d) X ->
  pointFits B z -> z ∉ X ++ map (fun i => rep (rnd i).1) (seq 0 (S d - length X)) -> (v < 2 ^ (8 * N.of_nat B))%N ->
  exists b, forall b', (exists cs r, superCoeffs K rep ofN B (revalue K rnd b') d X Y = Done cs /\
    evalSuper K rep ofN B (cs ++ replicate k (rep (f0 K))) [z] [] = Done [r] /\ rowNum r = v) <-> b' = b.
Proof. intros HF HB. exact (other_uniform K rep ofN B HF HB rnd d X Y k z v). Qed.
Print Assumptions C164_others_partial.
(** So some polynomials of a bin without [z] come from no bin with [z], whatever the keys and the random points. *)
Theorem C164_tells_partial K rep ofN B P F rnd d blks z : byteField K rep ofN B -> B <= 64 ->
  Forall (fun x => x < 2 ^ 128)%N (z :: blks) -> 384 <= F <= 512 -> F < 8 * B -> length blks <= d -> pointsOk K rep rnd (S d) blks ->
  z ∉ blks ++ map (fun i => rep (rnd i).1) (seq 0 (S d - length blks)) ->
  exists b cs, superCoeffs K rep ofN B (revalue K rnd b) d (map fst (binPoints P F blks)) (map snd (binPoints P F blks)) = Done cs /\
    forall P' rnd' blks', Forall (fun x => x < 2 ^ 128)%N blks' -> length blks' <= S d -> pointsOk K rep rnd' (S d) blks' -> z ∈ blks' ->
      superCoeffs K rep ofN B rnd' d (map fst (binPoints P' F blks')) (map snd (binPoints P' F blks')) <> Done cs.
Proof. intros HF HB. exact (tells K rep ofN B HF HB P F rnd d blks z). Qed.
Print Assumptions C164_tells_partial.
(** The sizes of PRTY: the field is larger than the rows, by 4 bits, for these numbers of items. *)
Theorem C164_sizes_partial n : let F := fieldSizeOf n in let B := (F + 7) / 8 in
  384 <= F <= 8 * B /\ 16 <= B <= 64 /\ (F < 8 * B <-> (2 ^ 10 < n <= 2 ^ 12 \/ 2 ^ 14 < n <= 2 ^ 16 \/ 2 ^ 18 < n)%N) /\ (F < 8 * B -> 8 * B = F + 4).
Proof. exact (sizes n). Qed.
Print Assumptions C164_sizes_partial.
(** What holds: rows that fill the field hide the items. Each choice of rows and random values of one bin has exactly one of any other bin with the same polynomial. *)
Theorem C164_hidden_partial K rep ofN B d X px X' px' Y V : byteField K rep ofN B -> B <= 64 -> length X <= S d -> length X' <= S d ->
  Forall (pointFits B) X -> Forall (pointFits B) X' -> pointsOk K rep (filling K px []) (S d) X -> pointsOk K rep (filling K px' []) (S d) X' ->
  length Y = length X -> Forall (rowFitsB B) Y -> length V = S d - length X ->
  exists cs, superCoeffs K rep ofN B (filling K px V) d X Y = Done cs /\
    exists Y' V', (length Y' = length X' /\ Forall (rowFitsB B) Y' /\ length V' = S d - length X') /\
      forall Y'' V'', length Y'' = length X' -> Forall (rowFitsB B) Y'' -> length V'' = S d - length X' ->
        superCoeffs K rep ofN B (filling K px' V'') d X' Y'' = Done cs <-> Y'' = Y' /\ V'' = V'.
Proof. intros HF HB. exact (hidden K rep ofN B HF HB d X px X' px' Y V). Qed.
Print Assumptions C164_hidden_partial.
(** The rows fill the field when their size is a number of bytes. *)
Theorem C164_full_partial F B r : 384 <= F <= 512 -> F = 8 * B -> rowFits F r <-> rowFitsB B r.
Proof. exact (full_rows F B r). Qed.
Print Assumptions C164_full_partial.

(** The field of 64 bytes, bins of 40 points, rows of 420 bits. *)
Definition K64 : fops := twK (twAt 9).
Definition rep64 : fT K64 -> N := twRep (twAt 9).
Definition of64 : N -> fT K64 := twOf (twAt 9).
Lemma field64 : byteField K64 rep64 of64 64.
Proof. exact (tower_bytes 6). Qed.
Definition rnd64 (i : nat) : fT K64 * fT K64 := (of64 (1000 + N.of_nat i), of64 0).
Lemma points64 n : n <= 40 -> map (fun i => rep64 (rnd64 i).1) (seq 0 n) = map (fun i => (1000 + N.of_nat i)%N) (seq 0 n).
Proof.
  intros Hn. apply map_ext_in. intros i Hi%in_seq. unfold rnd64. cbn [fst]. apply field64. apply N.lt_trans with 2000%N; [lia|done].
Qed.
Definition prty0 : prty := mkPrty (fun i x => x) (fun i x => x) (fun _ => false) (fun x => x) (fun _ _ => []).

Theorem C164_hidden_refuted : exists K rep ofN B F rnd P blks blks' cs, byteField K rep ofN B /\ 384 <= F /\ F < 8 * B /\ length blks = length blks' /\
  Forall (fun x => x < 2 ^ 128)%N (blks ++ blks') /\ pointsOk K rep rnd 40 blks /\
  superCoeffs K rep ofN B rnd 39 (map fst (binPoints P F blks)) (map snd (binPoints P F blks)) = Done cs /\
  forall P' rnd', pointsOk K rep rnd' 40 blks' -> superCoeffs K rep ofN B rnd' 39 (map fst (binPoints P' F blks')) (map snd (binPoints P' F blks')) <> Done cs.
Proof.
  destruct (tells K64 rep64 of64 64 field64 ltac:(lia) prty0 420 rnd64 39 [5; 77]%N 9%N) as (b & cs & E & H).
  - repeat (constructor; [done|]). constructor.
  - lia.
  - lia.
  - cbn. lia.
  - unfold pointsOk. rewrite points64 by (cbn; lia). apply (bool_decide_eq_true_1 _). vm_compute. reflexivity.
  - rewrite points64 by (cbn; lia). apply (bool_decide_eq_true_1 _). vm_compute. reflexivity.
  - exists K64, rep64, of64, 64, 420, (revalue K64 rnd64 b), prty0, [5; 77]%N, [9; 77]%N, cs. split; [exact field64|]. split; [lia|]. split; [lia|]. split; [done|].
    split; [repeat (constructor; [done|]); constructor|]. split.
    { unfold pointsOk. rewrite (map_ext _ (fun i => rep64 (rnd64 i).1)) by (by intros []). rewrite points64 by (cbn; lia). apply (bool_decide_eq_true_1 _). vm_compute. reflexivity. }
    split; [exact E|]. intros P' rnd' Hok. apply H; [repeat (constructor; [done|]); constructor|cbn; lia|done|by left].
Qed.
Print Assumptions C164_hidden_refuted.

(** In the field of one byte, two points and two random ones. The value at 6 is any byte; another bin has the same polynomial with other rows. *)
Example C164_example : pointsOk K8 rep8 rnd8 4 [5; 77]%N /\ (6 ∉ [5; 77]%N ++ map (fun i => rep8 (rnd8 i).1) (seq 0 2))%N /\
  pointsOk K8 rep8 (filling K8 (fun i => of8 (100 + N.of_nat i)) []) 4 [6; 8; 9]%N /\
  superCoeffs K8 rep8 of8 1 rnd8 3 [5; 77]%N [row1 9; row1 15] = Done [166; 243; 168; 118]%N /\
  evalSuper K8 rep8 of8 1 [166; 243; 168; 118]%N [5; 77; 6]%N [] = Done [row1 9; row1 15; row1 143].
Proof.
  split; [by apply (bool_decide_eq_true_1 _); vm_compute|]. split; [by apply (bool_decide_eq_true_1 _); vm_compute|]. split; [by apply (bool_decide_eq_true_1 _); vm_compute|].
  split; vm_compute; reflexivity.
Qed.
