(** Property theorems about RR17b (C45, C47, C48, C80, C81). *)
From Verif Require Import Base Dcw_Spec Rr17_Model Rr17_Spec Rr17_Proofs Rr17b_Model Rr17b_Spec Rr17b_Proofs.

(** * C45 *)

(** Two chunks: the first completes before the second is queued. *)
Theorem C45_buffer_refuted : exists chunks tr, 0 < chunks < 2 ^ 32 /\ validTrace tr /\ N.of_nat (queues tr) <= chunks /\ bufRun false chunks tr = UB.
Proof.
  exists 2, [Queue; Complete; Queue]. split; [done|]. split; [|by vm_compute].
  intros k. do 4 (destruct k as [|k]; [vm_compute; lia|]). cbn. lia.
Qed.
Print Assumptions C45_buffer_refuted.

(** As long as some chunk is outstanding until all are queued, the buffer is released once, at the end. Missing: the other orders. *)
Theorem C45_buffer_partial chunks tr : 0 < chunks < 2 ^ 32 -> validTrace tr -> N.of_nat (queues tr) <= chunks ->
  (forall k, (0 < queues (take k tr))%nat -> queues (take k tr) = completes (take k tr) -> N.of_nat (queues (take k tr)) = chunks) ->
  exists s, bufRun false chunks tr = Done s /\ bsFreed s = (if N.of_nat (completes tr) =? chunks then 1%nat else 0%nat) /\
    (bsFreed s <> 0%nat -> queues tr = completes tr).
Proof.
  intros H1 H2 H3 H4. eexists. split; [exact (buf_counting chunks tr H1 H2 H3 H4)|]. split; [done|]. cbn [bsFreed]. pose proof (validTrace_le tr H2) as L.
  destruct (N.of_nat (completes tr) =? chunks) eqn:E; [|done]. apply N.eqb_eq in E. intros _. lia.
Qed.
Print Assumptions C45_buffer_partial.
Example C45_example : validTrace [Queue; Queue; Complete; Queue; Complete; Complete] /\
  (forall k, (0 < queues (take k [Queue; Queue; Complete; Queue; Complete; Complete]))%nat ->
     queues (take k [Queue; Queue; Complete; Queue; Complete; Complete]) = completes (take k [Queue; Queue; Complete; Queue; Complete; Complete]) ->
     N.of_nat (queues (take k [Queue; Queue; Complete; Queue; Complete; Complete])) = 3) /\
  bufRun false 3 [Queue; Queue; Complete; Queue; Complete; Complete] = Done (mkBufState 0 1).
Proof.
  split; [|split; [|by vm_compute]].
  - intros k. do 7 (destruct k as [|k]; [vm_compute; lia|]). cbn. lia.
  - intros k. do 6 (destruct k as [|k]; [vm_compute; lia|]). rewrite take_ge by (cbn; lia). by vm_compute.
Qed.

(** * Values for the examples *)

(** Tags collide often, keys depend on everything; the commitment keeps the item and the low bits of the decommitment value. *)
Definition exEnc (t i : nat) (x : N) : N * N := ((x + N.of_nat i) mod 3, (x * 2 ^ 40 + N.of_nat t * 2 ^ 20 + N.of_nat i) mod 2 ^ 128).
Definition exCom (x r : N) : N := x mod 2 ^ 128 * 2 ^ 32 + r mod 2 ^ 32.
Definition exRo (x : N) : N := (x * 0x9e3779b97f4a7c15f39cc0605cedc835) mod 2 ^ 128.
Definition exP (hash : bool) (n nb cap T : nat) : params := mkParams hash exRo exRo n nb cap 7 T exEnc exCom.
(** The threads one after the other, in both directions. *)
Definition exSched (T : nat) : list step :=
  concat (map (fun t => [Insert t; Correct t]) (seq 0 T)) ++ concat (map (fun t => [Corrected t; Barrier t]) (rev (seq 0 T))) ++ concat (map (fun t => [Send t; Lookup t]) (seq 0 T)).
Definition exRd (n nb cap T : nat) : rand :=
  mkRand (fun b i => N.of_nat (b + 3 * i)) (rev (seq 0 n)) (fun j => 1000 + 77 * N.of_nat j mod 2 ^ 64) (seq 0 n) (rev (seq 0 n)) (rev (sendPlaces cap nb T)) (exSched T)
    (fun t l => if Nat.even t then rev l else l) (rev (seq 0 T)).

Definition beforeb (a b : step) (l : list step) : bool :=
  match list_find (fun x => x = a) l, list_find (fun x => x = b) l with Some (i, _), Some (j, _) => (i <? j)%nat | _, _ => false end.
Lemma beforeb_ok a b l : beforeb a b l = true -> before a b l.
Proof.
  unfold beforeb. destruct (list_find (fun x => x = a) l) as [[i x]|] eqn:E; [|done]. destruct (list_find (fun x => x = b) l) as [[j y]|] eqn:E'; [|done].
  intros H. apply Nat.ltb_lt in H. apply list_find_Some in E as (E & -> & _), E' as (E' & -> & _). by exists i, j.
Qed.
Definition schedOkb (T : nat) (l : list step) : bool :=
  bool_decide (NoDup l) && forallb (fun t => beforeb (Insert t) (Correct t) l && beforeb (Correct t) (Corrected t) l && beforeb (Corrected t) (Barrier t) l &&
    forallb (fun u => beforeb (Barrier t) (Send u) l) (seq 0 T) && beforeb (Send t) (Lookup t) l) (seq 0 T).
Lemma schedOkb_ok T l : schedOkb T l = true -> schedOk T l.
Proof.
  intros H. apply andb_true_iff in H as [H1 H2]. apply bool_decide_eq_true in H1. split; [done|]. intros t Ht. rewrite forallb_forall in H2. specialize (H2 t).
  rewrite in_seq, !andb_true_iff in H2. destruct (H2 ltac:(lia)) as [[[[B1 B2] B3] B4] B5]. split; [by apply beforeb_ok|]. split; [by apply beforeb_ok|]. split; [by apply beforeb_ok|].
  split; [|by apply beforeb_ok]. intros u Hu. apply beforeb_ok. rewrite forallb_forall in B4. apply B4, in_seq. lia.
Qed.

Lemma exRd_ok hash n nb cap T : schedOkb T (exSched T) = true -> forallb (fun e => match e with Insert t => (t <? T)%nat | _ => true end) (exSched T) = true -> randOk (exP hash n nb cap T) (exRd n nb cap T).
Proof.
  intros H1 H2. unfold randOk. cbn [rPerm rDec rOrdR rOrdS rPlaces rSched rTab rOut exRd pCap pN pNb pT exP]. split; [by rewrite <- Permutation_rev|].
  split; [intros j; pose proof (N.mod_lt (77 * N.of_nat j) (2 ^ 64) ltac:(done)); lia|]. split; [done|]. split; [by rewrite <- Permutation_rev|]. split; [by rewrite <- Permutation_rev|].
  split; [intros t l; destruct (Nat.even t); [by rewrite <- Permutation_rev|done]|]. split; [by rewrite <- Permutation_rev|]. split; [by apply schedOkb_ok|].
  intros t Ht. rewrite forallb_forall in H2. apply elem_of_list_In in Ht. specialize (H2 _ Ht). cbn in H2. by apply Nat.ltb_lt.
Qed.

Definition loadsOkb (P : params) (l : list N) : bool :=
  bool_decide ((0 < pN P)%nat /\ (0 < pNb P)%nat /\ (0 < pCap P)%nat /\ (0 < pT P)%nat /\ pMask P <= 16 /\
    N.of_nat (pNb P + pT P) * N.of_nat (pT P) < 2 ^ 64 /\ N.of_nat (pN P + pT P) * N.of_nat (pT P) < 2 ^ 64 /\ length l = pN P /\
    Forall (fun b => (load P l b <= pCap P)%nat) (seq 0 (pNb P))).
Lemma exP_ok hash n nb cap T l : loadsOkb (exP hash n nb cap T) l = true -> paramsOk (exP hash n nb cap T) l.
Proof.
  intros H. apply bool_decide_eq_true in H as (H1 & H2 & H3 & H4 & H5 & H6 & H7 & H8 & H9). repeat (split; [done|]). split; [|split].
  - intros b. destruct (decide (b < nb)%nat) as [Hb|Hb].
    + rewrite Forall_forall in H9. apply H9, elem_of_seq. cbn [pNb exP]. lia.
    + unfold load. assert (filter (fun x => itemBin (exP hash n nb cap T) x = b) l = []) as ->; [|cbn; lia]. clear H8 H9.
      induction l as [|x l IH]; [done|]. rewrite filter_cons_False; [done|]. pose proof (binOf_lt (pNb (exP hash n nb cap T)) (binValue (exP hash n nb cap T) x) H2) as L. unfold itemBin. cbn [pNb exP] in *. lia.
  - intros t i x. cbn [pEnc exP exEnc fst snd]. split.
    + eapply N.lt_trans; [apply N.mod_lt|]; done.
    + by apply N.mod_lt.
  - intros x r. cbn [pCom exP]. unfold exCom. pose proof (N.mod_lt x (2 ^ 128) ltac:(done)). pose proof (N.mod_lt r (2 ^ 32) ltac:(done)). lia.
Qed.

Lemma exBinding hash n nb cap T rd R S : Forall (fun x => x < 2 ^ 128) R -> Forall (fun x => x < 2 ^ 128) S -> binding (exP hash n nb cap T) rd R S.
Proof.
  intros HR HS x j y t s t' s' Hx Hy _ E. rewrite Forall_forall in HR, HS. pose proof (HR x Hx) as Lx. pose proof (HS y ltac:(by eapply elem_of_list_lookup_2)) as Ly.
  cbn [pCom exP] in E. unfold exCom in E. rewrite !(N.mod_small _ (2 ^ 128)) in E by done.
  match type of E with _ + ?a mod _ = _ + ?b mod _ => pose proof (N.mod_lt a (2 ^ 32) ltac:(done)) as La; pose proof (N.mod_lt b (2 ^ 32) ltac:(done)) as Lb; set (u := a mod 2 ^ 32) in *; set (v := b mod 2 ^ 32) in * end.
  clearbody u v. clear -E La Lb. lia.
Qed.

Definition exSetR : list N := [4; 9; 16; 25].
Definition exSetS : list N := [9; 7; 25; 2].

(** * C47 *)

Theorem C47_single_channel_exact ss P rd R S old : (0 < ss)%nat -> pT P = 1%nat -> paramsOk P R -> paramsOk P S -> randOk P rd -> binding P rd R S -> NoDup R ->
  exists new, rr17bRun ss P rd R S old = Done (old ++ new) /\ new ≡ₚ commonPositions R S.
Proof. intros Hs HT HR HS HD HB ND. apply (run_divides ss P rd R S old Hs HR HS HD HB ND). rewrite HT. apply N.divide_1_l. Qed.
Print Assumptions C47_single_channel_exact.
(** Messages of three rows; every tag collides with others. *)
Example C47_example : paramsOk (exP true 4 4 3 1) exSetR /\ paramsOk (exP true 4 4 3 1) exSetS /\ randOk (exP true 4 4 3 1) (exRd 4 4 3 1) /\
  binding (exP true 4 4 3 1) (exRd 4 4 3 1) exSetR exSetS /\ rr17bRun 3 (exP true 4 4 3 1) (exRd 4 4 3 1) exSetR exSetS [8] = Done [8; 3; 1].
Proof.
  split; [by apply exP_ok; vm_compute|]. split; [by apply exP_ok; vm_compute|]. split; [by apply exRd_ok; vm_compute|].
  split; [by apply exBinding; repeat constructor|]. by vm_compute.
Qed.

(** * C48 *)

(** [try]: any lookup function. A message of the announced size is read to its end and never beyond, and after [j] items the position is at
    the start of item [j]. *)
Theorem C48_aligned try cap msg count j : length msg = (count * (20 * cap + 20))%nat -> (j <= count)%nat ->
  exists l, scanItems try cap msg j 0 = Done ((j * (20 * cap + 20))%nat, l).
Proof.
  intros L Hj. eexists. apply (scanItems_eq try cap msg j 0). change (setSize cap) with (20 * cap + 20)%nat. rewrite L. cbn [Nat.add]. apply Nat.mul_le_mono_r. exact Hj.
Qed.
Print Assumptions C48_aligned.
(** The first item matches in its first slot, the second not at all. *)
Example C48_example : exists msg, length msg = (2 * (20 * 2 + 20))%nat /\
  scanItems (fun comm tag enc => if tag =? 258 then Some 7%nat else None) 2 msg 2 0 = Done (120%nat, [7%nat]) /\
  scanItems (fun comm tag enc => if tag =? 258 then Some 7%nat else None) 2 msg 1 0 = Done (60%nat, [7%nat]).
Proof. exists (replicate 20 0 ++ [2; 1] ++ replicate 98 0). split; [done|]. by vm_compute. Qed.

(** * C80 *)

(** 10 bins, 4 channels: on the first channel the sender waits for the corrections of three bins and gets those of two. *)
Theorem C80_channels_refuted : exists P rd R S, paramsOk P R /\ paramsOk P S /\ randOk P rd /\ binding P rd R S /\ NoDup R /\ NoDup S /\
  commonPositions R S = [1; 3] /\ rr17bRun 3 P rd R S [] = Thrown [].
Proof.
  exists (exP true 4 10 3 4), (exRd 4 10 3 4), exSetR, exSetS. split; [by apply exP_ok; vm_compute|]. split; [by apply exP_ok; vm_compute|]. split; [by apply exRd_ok; vm_compute|].
  split; [by apply exBinding; repeat constructor|]. split; [by apply (bool_decide_unpack _); vm_compute|]. split; [by apply (bool_decide_unpack _); vm_compute|]. split; [by vm_compute|].
  vm_compute. reflexivity.
Qed.
Print Assumptions C80_channels_refuted.

(** Any number of channels: a run that comes to an end is exact. Missing: that it comes to an end. *)
Theorem C80_channels_partial ss P rd R S old res : (0 < ss)%nat -> paramsOk P R -> paramsOk P S -> randOk P rd -> binding P rd R S -> NoDup R ->
  rr17bRun ss P rd R S old = Done res -> exists new, res = old ++ new /\ new ≡ₚ commonPositions R S.
Proof. exact (run_exact ss P rd R S old res). Qed.
Print Assumptions C80_channels_partial.
(** It does if the number of channels divides the number of bins. *)
Theorem C80_divides_partial ss P rd R S old : (0 < ss)%nat -> paramsOk P R -> paramsOk P S -> randOk P rd -> binding P rd R S -> NoDup R ->
  (N.of_nat (pT P) | N.of_nat (pNb P)) -> exists new, rr17bRun ss P rd R S old = Done (old ++ new) /\ new ≡ₚ commonPositions R S.
Proof. exact (run_divides ss P rd R S old). Qed.
Print Assumptions C80_divides_partial.
Example C80_example : paramsOk (exP true 4 6 3 3) exSetR /\ paramsOk (exP true 4 6 3 3) exSetS /\ randOk (exP true 4 6 3 3) (exRd 4 6 3 3) /\
  binding (exP true 4 6 3 3) (exRd 4 6 3 3) exSetR exSetS /\ (N.of_nat 3 | N.of_nat 6) /\
  rr17bRun 1 (exP true 4 6 3 3) (exRd 4 6 3 3) exSetR exSetS [] = Done [1; 3].
Proof.
  split; [by apply exP_ok; vm_compute|]. split; [by apply exP_ok; vm_compute|]. split; [by apply exRd_ok; vm_compute|].
  split; [by apply exBinding; repeat constructor|]. split; [by exists 2|]. by vm_compute.
Qed.

(** * C81 *)

(** No barrier of the receiver is involved. *)
Theorem C81_insert_before_lookup T l t u : schedOk T l -> (t < T)%nat -> (u < T)%nat -> before (Insert u) (Lookup t) l.
Proof. exact (sched_before T l t u). Qed.
Print Assumptions C81_insert_before_lookup.
Example C81_example : schedOk 3 (exSched 3) /\ exSched 2 = [Insert 0; Correct 0; Insert 1; Correct 1; Corrected 1; Barrier 1; Corrected 0; Barrier 0; Send 0; Lookup 0; Send 1; Lookup 1].
Proof. split; [by apply schedOkb_ok; vm_compute|done]. Qed.
