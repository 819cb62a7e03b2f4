(** Property theorems about the distributed point function and the PIR (C14-C20, C65-C67). *)
From Verif Require Import Base Bgi_Model Bgi_Spec Bgi_Proofs BgiFull_Proofs BgiSum_Proofs BgiGen_Proofs BgiMulti_Proofs BgiBytes_Proofs.

(** A block cipher, a generator and a database for the examples. *)
Definition exAes (c : bool) (x : N) : N := (x * x * 1099511628211 + x * (if c then 7777777 else 3333333) + 12345678901234567890) mod 2 ^ 128.
Definition exPrng (seed : N) : N * N := (exAes true seed, exAes false seed).
Definition exData (n : nat) : list N := map (fun i => exAes true (N.of_nat i)) (seq 0 n).
Definition exKey (depth gs : nat) (idx : N) : list N * list N :=
  match keyGen exAes exPrng depth gs idx 42 with Done (k0, g0, _, _) => (k0, g0) | _ => ([], []) end.

(** * C14 *)

Theorem C14_point_function aes prng depth gs idx seed : (0 < gs)%nat -> idx < domainSize depth gs ->
  exists k0 g0 k1 g1, keyGen aes prng depth gs idx seed = Done (k0, g0, k1, g1) /\
    forall q, q < domainSize depth gs -> exists b0 b1,
      evalOne aes q k0 g0 = Done b0 /\ evalOne aes q k1 g1 = Done b1 /\ (xorb b0 b1 = true <-> q = idx).
Proof.
  intros Hgs Hi. destruct (keyGen_ok aes prng depth gs idx seed Hgs) as (s0 & s1 & cws & g & E & _ & _ & _ & H).
  exists (s0 :: cws), g, (s1 :: cws), g. split; [exact E|]. intros q Hq.
  destruct (H Hi q Hq) as (b0 & b1 & E0 & E1 & X). exists b0, b1. rewrite X. split; [exact E0|]. split; [exact E1|]. apply N.eqb_eq.
Qed.
Print Assumptions C14_point_function.
Example C14_example : exists k0 g0 k1 g1, keyGen exAes exPrng 4 2 1000 42 = Done (k0, g0, k1, g1) /\ 1000 < domainSize 4 2 /\
  evalOne exAes 1000 k0 g0 = Done false /\ evalOne exAes 1000 k1 g1 = Done true /\
  evalOne exAes 1001 k0 g0 = Done false /\ evalOne exAes 1001 k1 g1 = Done false.
Proof. eexists _, _, _, _. split; [vm_compute; reflexivity|]. vm_compute. done. Qed.

(** * C15 *)

(** Any key material [k0 :: cws], [g]. A database of the wrong size throws. *)
Theorem C15_full_domain aes data k0 cws g : g ≠ [] -> N.of_nat (length cws) < 2 ^ 64 ->
  exists f, (forall p, evalOne aes p (k0 :: cws) g = Done (f p)) /\
    fullDomain aes data (k0 :: cws) g =
    if N.of_nat (length data) =? domainSize (length cws) (length g) then Done (selectXor f data) else Thrown 0.
Proof.
  intros Hg H64. exists (evalBit aes (k0 :: cws) g). split; [|exact (fullDomain_ok aes data k0 cws g Hg H64)].
  intros p. unfold evalBit. rewrite evalOne_leaf by exact Hg. reflexivity.
Qed.
Print Assumptions C15_full_domain.
Example C15_example : exists r, fullDomain exAes (exData 1024) [1; 2; 3; 4] [9] = Done r /\ 0 < r /\
  fullDomain exAes (exData 256) [1; 2] [9] = Done (selectXor (fun p => match evalOne exAes p [1; 2] [9] with Done b => b | _ => false end) (exData 256)) /\
  selectXor N.odd [1; 2; 4; 8] = 10.
Proof. eexists. split; [vm_compute; reflexivity|]. vm_compute. done. Qed.

(** * C16 *)

Theorem C16_query aes prng depth gs data idx seed x : (0 < gs)%nat -> N.of_nat depth < 2 ^ 64 ->
  N.of_nat (length data) = domainSize depth gs -> data !! N.to_nat idx = Some x ->
  query aes prng depth gs data idx seed = Done x.
Proof. exact (query_ok aes prng depth gs data idx seed x). Qed.
Print Assumptions C16_query.
Example C16_example : exists x, exData 256 !! N.to_nat 77 = Some x /\ query exAes exPrng 1 1 (exData 256) 77 42 = Done x /\
  N.of_nat (length (exData 256)) = domainSize 1 1.
Proof. eexists. split; [vm_compute; reflexivity|]. vm_compute. done. Qed.

(** * C17 *)

(** [spread] lists the (position, value) pairs of the chunks. *)
Theorem C17_generator aes k0 cws g : g ≠ [] -> N.of_nat (length cws) < 2 ^ 64 ->
  exists o o' chunks f, (forall p, evalOne aes p (k0 :: cws) g = Done (f p)) /\
    genInit aes (k0 :: cws) g gen0 = Done o /\
    (forall fuel, (N.to_nat (2 ^ N.of_nat (length cws)) <= fuel)%nat -> drain aes fuel o = Done (o', chunks)) /\
    spread chunks ≡ₚ map (fun p => (p, if f p then 1 else 0)) (allPositions (domainSize (length cws) (length g))) /\
    gnHasMore o' = false /\ genYield aes o' = Thrown (o', []).
Proof.
  intros Hg H64. destruct (generator_ok aes k0 cws g Hg H64) as (o & o' & chunks & H).
  exists o, o', chunks, (evalBit aes (k0 :: cws) g). split; [|exact H].
  intros p. unfold evalBit. rewrite evalOne_leaf by exact Hg. reflexivity.
Qed.
Print Assumptions C17_generator.
Example C17_example : exists o o' chunks, genInit exAes [1; 2; 3; 4; 5] [9] gen0 = Done o /\ drain exAes 2 o = Done (o', chunks) /\
  length (spread chunks) = 2048%nat /\ length chunks = 16%nat /\ chunks.*1 !! 8%nat = Some 128 /\ spread [(5, [7; 8])] = [(5, 7); (6, 8)].
Proof. eexists _, _, _. split; [reflexivity|]. split; [vm_compute; reflexivity|]. vm_compute. done. Qed.

(** * C18, C67 *)

Theorem C18_multi_key aes keys D gs : keys ≠ [] -> (0 < gs)%nat -> N.of_nat D < 2 ^ 64 ->
  Forall (fun kg => length kg.1 = S D /\ length kg.2 = gs) keys ->
  exists o f, (forall kg p, kg ∈ keys -> evalOne aes p kg.1 kg.2 = Done (f kg p)) /\ multiInit keys = Done o /\
    (forall n, N.of_nat n <= domainSize D gs -> exists o',
       yields aes n o = Done (o', map (fun r => map (fun kg => if f kg (N.of_nat r) : bool then 1 else 0) keys) (seq 0 n))) /\
    exists o1 o2 rows, yields aes (N.to_nat (domainSize D gs)) o = Done (o1, rows) /\ mkYield aes o1 = Thrown (o2, []).
Proof.
  intros Hne Hgs HD HF. destruct (multi_ok aes keys D gs HF Hgs HD Hne) as (o & Eo & H1 & o1 & o2 & H2 & H3 & _).
  assert (N.to_nat (domainSize D gs) = N.to_nat (2 ^ N.of_nat D) * (gs * 128))%nat as Es by (unfold domainSize; lia).
  exists o, (fun kg => evalBit aes kg.1 kg.2). split; [|split; [exact Eo|split]].
  - intros [k g] p Hk. apply (proj1 (Forall_forall _ _) HF) in Hk as [Lk Lg]. cbn [fst snd] in Lk, Lg |- *. destruct k as [|k0 cws]; [discriminate|].
    unfold evalBit. rewrite evalOne_leaf; [reflexivity|]. intros ->. cbn in Lg. lia.
  - intros n Hn. destruct (H1 n) as (o' & E); [rewrite <- Es; lia|]. exists o'. exact E.
  - exists o1, o2. eexists. rewrite Es. split; [exact H2|exact H3].
Qed.
Print Assumptions C18_multi_key.
Example C18_example : exists o o', multiInit [([1; 2], [9; 5]); ([7; 8], [3; 4]); ([5; 5], [5; 5])] = Done o /\
  yields exAes 2 o = Done (o', [[1; 0; 0]; [0; 0; 0]]) /\
  evalOne exAes 0 [1; 2] [9; 5] = Done true /\ evalOne exAes 0 [7; 8] [3; 4] = Done false.
Proof. eexists _, _. split; [reflexivity|]. split; [vm_compute; reflexivity|]. vm_compute. done. Qed.

(** After the exception the next call does not throw again, it returns a row. *)
Theorem C67_stays_exhausted_refuted : exists aes keys o o1 rows o2 o3 row,
  multiInit keys = Done o /\ yields aes (N.to_nat (domainSize 0 1)) o = Done (o1, rows) /\
  mkYield aes o1 = Thrown (o2, []) /\ mkYield aes o2 = Done (o3, row).
Proof.
  exists exAes, [([1], [9])]. eexists _, _, _, _, _, _. split; [reflexivity|]. split; [vm_compute; reflexivity|].
  split; vm_compute; reflexivity.
Qed.
Print Assumptions C67_stays_exhausted_refuted.
(** What happens: the rows of the last leaf are returned again. *)
Theorem C67_stays_exhausted_partial aes keys D gs : keys ≠ [] -> (0 < gs)%nat -> N.of_nat D < 2 ^ 64 ->
  Forall (fun kg => length kg.1 = S D /\ length kg.2 = gs) keys ->
  exists o o1 rows o2 o3, multiInit keys = Done o /\ yields aes (N.to_nat (domainSize D gs)) o = Done (o1, rows) /\
    mkYield aes o1 = Thrown (o2, []) /\
    yields aes (gs * 128) o2 = Done (o3, drop (N.to_nat (domainSize D gs) - gs * 128) rows).
Proof.
  intros Hne Hgs HD HF. destruct (multi_ok aes keys D gs HF Hgs HD Hne) as (o & Eo & H1 & o1 & o2 & H2 & H3 & o3 & H4).
  assert (N.to_nat (domainSize D gs) = N.to_nat (2 ^ N.of_nat D) * (gs * 128))%nat as Es by (unfold domainSize; lia).
  assert (2 ^ N.of_nat D ≠ 0) by (apply N.pow_nonzero; discriminate).
  exists o, o1. eexists. exists o2, o3. rewrite Es. split; [exact Eo|]. split; [exact H2|]. split; [exact H3|].
  rewrite H4. f_equal. f_equal. rewrite skipn_map. f_equal. rewrite seq_drop. f_equal; nia.
Qed.
Print Assumptions C67_stays_exhausted_partial.
Example C67_example : Forall (fun kg : list N * list N => length kg.1 = 2%nat /\ length kg.2 = 2%nat) [([1; 2], [9; 5]); ([7; 8], [3; 4])].
Proof. apply (bool_decide_unpack _). vm_compute. done. Qed.

(** * C19 *)

(** Key for index 5, 128 records: the two evaluations differ. *)
Theorem C19_naive_agrees_refuted : exists aes prng depth gs idx seed k0 g0 k1 g1 data,
  keyGen aes prng depth gs idx seed = Done (k0, g0, k1, g1) /\
  exists r r', fullDomain aes data k0 g0 = Done r /\ fullDomainNaive aes data k0 g0 = Done r' /\ r ≠ r'.
Proof.
  exists exAes, exPrng, 0%nat, 1%nat, 5, 42. eexists _, _, _, _. exists (exData 128). split; [vm_compute; reflexivity|].
  eexists _, _. split; [vm_compute; reflexivity|]. split; [vm_compute; reflexivity|]. done.
Qed.
Print Assumptions C19_naive_agrees_refuted.
(** The same databases are refused. *)
Theorem C19_naive_agrees_partial aes data k0 cws g :
  N.of_nat (length data) ≠ domainSize (length cws) (length g) ->
  fullDomain aes data (k0 :: cws) g = Thrown 0 /\ fullDomainNaive aes data (k0 :: cws) g = Thrown 0.
Proof.
  intros H. unfold domainSize in H. unfold fullDomain, fullDomainNaive.
  rewrite (proj2 (N.eqb_neq _ _) H). rewrite (proj2 (N.eqb_neq _ _)); [auto|]. intros X. apply H. rewrite X. lia.
Qed.
Print Assumptions C19_naive_agrees_partial.
Example C19_example : N.of_nat (length (exData 100)) ≠ domainSize 0 1.
Proof. vm_compute. done. Qed.

(** * C20 *)

Theorem C20_key_shape aes prng depth gs idx seed k0 g0 k1 g1 :
  keyGen aes prng depth gs idx seed = Done (k0, g0, k1, g1) ->
  g0 = g1 /\ length g0 = gs /\ exists r0 r1 cws, k0 = r0 :: cws /\ k1 = r1 :: cws /\ length cws = depth /\
    N.odd r0 = negb (N.odd r1).
Proof.
  intros E. destruct gs as [|gs']; [discriminate|].
  destruct (keyGen_ok aes prng depth (S gs') idx seed) as (s0 & s1 & cws & g & E' & Lc & Lg & Hl & _); [lia|].
  rewrite E' in E. injection E as <- <- <- <-. split; [reflexivity|]. split; [exact Lg|]. exists s0, s1, cws.
  split; [reflexivity|]. split; [reflexivity|]. split; [exact Lc|]. rewrite <- !N.bit0_odd. exact Hl.
Qed.
Print Assumptions C20_key_shape.
Example C20_example : exists r0 r1 cws g, keyGen exAes exPrng 2 1 100 42 = Done (r0 :: cws, g, r1 :: cws, g) /\ r0 ≠ r1.
Proof. eexists _, _, _, _. split; [vm_compute; reflexivity|]. done. Qed.

(** * C65 *)

(** A used generator, initialised again with another key of the same shape, announces output and throws. *)
Theorem C65_generator_reuse_refuted : exists aes k g k' g' o o1 chunks o2,
  genInit aes k g gen0 = Done o /\ drain aes 4 o = Done (o1, chunks) /\ genInit aes k' g' o1 = Done o2 /\
  gnHasMore o2 = true /\ genYield aes o2 = Thrown (o2, []).
Proof.
  exists exAes, [1; 2; 3], [9], [4; 5; 6], [7]. eexists _, _, _, _. split; [reflexivity|]. split; [vm_compute; reflexivity|].
  split; [vm_compute; reflexivity|]. split; [reflexivity|]. vm_compute. reflexivity.
Qed.
Print Assumptions C65_generator_reuse_refuted.
(** Initialised twice before use: the root of the first key stays. *)
Theorem C65_generator_root_refuted : exists aes k g k' g' o o2 o3 c f,
  genInit aes k g gen0 = Done o /\ genInit aes k' g' o = Done o2 /\ genYield aes o2 = Done (o3, c) /\
  (forall p, evalOne aes p k' g' = Done (f p)) /\ exists p b, (p, b) ∈ spread c /\ b ≠ if f p then 1 else 0.
Proof.
  exists exAes, [1], [9], [4], [7]. eexists _, _, _, _, (evalBit exAes [4] [7]). split; [reflexivity|]. split; [reflexivity|].
  split; [reflexivity|]. split.
  - intros p. unfold evalBit. rewrite evalOne_leaf by done. reflexivity.
  - exists 1, 0. split; [apply (bool_decide_unpack _); vm_compute; done|vm_compute; done].
Qed.
Print Assumptions C65_generator_root_refuted.

(** * C66 *)

Theorem C66_byte_positions_refuted : exists k0 g idx, idx < domainSize 0 (length g) /\
  forall aes bytes, Forall (fun b => b < 256) bytes -> bytesToUint128 bytes = Done idx ->
    evalOneBytes aes bytes [k0] g = Thrown false.
Proof. exists 1, [1; 2; 3], 300. split; [reflexivity|]. intros aes. exact (evalOneBytes_gap aes 1 1 2 3). Qed.
Print Assumptions C66_byte_positions_refuted.
Example C66_example_bytes : bytesToUint128 [44; 1] = Done 300.
Proof. vm_compute. reflexivity. Qed.
(** Group sizes that are powers of two. *)
Theorem C66_byte_positions_partial aes k0 cws g a idx : length g = (2 ^ a)%nat ->
  (length cws + a + 7 <= 128)%nat -> idx < domainSize (length cws) (length g) ->
  exists bytes, Forall (fun b => b < 256) bytes /\ bytesToUint128 bytes = Done idx /\
    evalOneBytes aes bytes (k0 :: cws) g = evalOne aes idx (k0 :: cws) g.
Proof. exact (evalOneBytes_ok aes k0 cws g a idx). Qed.
Print Assumptions C66_byte_positions_partial.
Example C66_example : length [1; 2] = (2 ^ 1)%nat /\ 1000 < domainSize 2 2 /\ bytesToUint128 [232; 3] = Done 1000 /\
  evalOneBytes exAes [232; 3] [5; 6; 7] [1; 2] = evalOne exAes 1000 [5; 6; 7] [1; 2].
Proof. vm_compute. done. Qed.
