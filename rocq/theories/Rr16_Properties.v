(** Property theorems about RR16 (C37 - C39, C75, C76). *)
From Verif Require Import Base Dcw_Spec Dcw_Proofs Rr16_Model Rr16_Spec Rr16_Proofs.

(** A run to use in the examples: filter of 40 bits, 3 hash functions, 3 items each, 60 OTs. *)
Definition exAes (k c : N) : N := ((k + 1) * 0x9e3779b97f4a7c15f39cc0605cedc835 + c * (c + k) * 0xd1342543de82ef95d1342543de82ef95) mod 2 ^ 128.
Definition exRo (s x : N) : N := (s * 7919 + x * x * 104729 + x * 31) mod 2 ^ 128.
Definition exOnes : list N := map N.of_nat (seq 40 18).
Definition exZeros : list N := map N.of_nat (seq 2 38).
Definition exMsg (i : N) : N := ((i + 3) * 0xf39cc0605cedc8359e3779b97f4a7c15 + i * i * i * 0x1234567) mod 2 ^ 128.
Definition exSmsgs : list (N * N) := map (fun i => (exMsg (1000 + N.of_nat i), exMsg (N.of_nat i))) (seq 0 60).
Definition exRmsgs : list N := map (fun i => if (i <? 40)%nat then exMsg (1000 + N.of_nat i) else exMsg (N.of_nat i)) (seq 0 60).
Definition exSampled : list bool := map (fun i => (i <? 2)%nat || (58 <=? i)%nat) (seq 0 60).
Definition exR : list N := [10; 20; 30].
Definition exS : list N := [30; 77; 10].
Definition exRun (T : nat) (mergeOrd outOrd : list nat) : outcome (list N) :=
  rr16Run exAes exRo 5 40 3 T 3 60 exZeros exOnes exRmsgs exSmsgs exSampled exR exS mergeOrd outOrd [].

Lemma exOts : otsOk exZeros exOnes exRmsgs exSmsgs exSampled.
Proof.
  split; [by apply (bool_decide_unpack _); vm_compute|]. split; [done|]. split; [done|]. split; [done|]. split.
  - apply Forall_forall, (bool_decide_unpack _). by vm_compute.
  - apply Forall_forall, (bool_decide_unpack _). by vm_compute.
Qed.

(** * C37 *)

(** [m]: filter bits, [nh]: hash functions, [T]: channels. *)
Theorem C37_honest_permutation aes ro seed m nh T n total zeros ones rmsgs smsgs sampled R S mergeOrd :
  (0 < T)%nat -> N.of_nat n * N.of_nat T < 2 ^ 64 -> (0 < m)%nat -> total <= 2 ^ 32 -> length R = n -> length S = n ->
  otsOk zeros ones rmsgs smsgs sampled -> (m <= length zeros + length ones)%nat ->
  exists bf, setBits (concat (map (filterPos aes ro seed (N.of_nat m) nh) R)) (replicate m false) = Some bf /\
    length bf = m /\ (forall x p, x ∈ R -> p ∈ filterPos aes ro seed (N.of_nat m) nh x -> bf !! N.to_nat p = Some true) /\
    ((countOnes bf <= length ones)%nat ->
     exists perm mp masks, recvFirst aes ro seed m nh T n total zeros ones rmsgs R mergeOrd = Done (perm, mp) /\
       length perm = m /\ NoDup perm /\ (forall i, i ∈ perm -> (N.to_nat i < length smsgs)%nat /\ sampled !! N.to_nat i = Some false) /\
       senderRun aes ro seed m nh T n smsgs sampled S perm = Done (Some masks) /\
       forall x, x ∈ R ->
         recvMask rmsgs perm (filterPos aes ro seed (N.of_nat m) nh x) 0 = sendMask smsgs perm (filterPos aes ro seed (N.of_nat m) nh x) 0 /\
         recvMask rmsgs perm (filterPos aes ro seed (N.of_nat m) nh x) 0 <> None).
Proof.
  intros HT Hw Hm Ht HR HS HO LL.
  destruct (filter_ok aes ro seed m nh n R Hm HR) as (bf & E & L & C & K). exists bf. split; [exact E|]. split; [done|]. split.
  { intros x p Hx Hp. apply K. apply elem_of_concat. exists (filterPos aes ro seed (N.of_nat m) nh x). split; [done|]. apply elem_of_list_fmap. eauto. }
  intros C'. destruct (recvFirst_ok aes ro seed m nh T n total zeros ones rmsgs smsgs sampled R S HT Hw Hm Ht HR HS HO mergeOrd) as
    (bf' & perm & E1 & E2 & LP & ND & B & X & E3 & E4); [by rewrite E| done|].
  eexists perm, _, _. split; [exact E3|]. split; [done|]. split; [done|]. split; [intros i Hi; destruct (B i Hi) as (_ & ? & ?); done|].
  split; [exact E4|]. intros x Hx.
  assert (forall p, p ∈ filterPos aes ro seed (N.of_nat m) nh x -> (N.to_nat p < length perm)%nat) as BP.
  { intros p Hp. apply filterPos_lt in Hp; lia. }
  destruct HO as (_ & LR & _).
  rewrite recvMask_eq, sendMask_eq; [|done|intros i Hi; by apply B|done|intros i Hi; rewrite LR; by apply B].
  split; [|done]. f_equal. f_equal. by apply X.
Qed.
Print Assumptions C37_honest_permutation.
Example C37_example : otsOk exZeros exOnes exRmsgs exSmsgs exSampled /\
  (exists bf, setBits (concat (map (filterPos exAes exRo 5 40 3) exR)) (replicate 40 false) = Some bf /\ countOnes bf = 7%nat) /\
  (exists perm mp, recvFirst exAes exRo 5 40 3 2 3 60 exZeros exOnes exRmsgs exR [1; 0]%nat = Done (perm, mp) /\ length mp = 3%nat).
Proof. split; [exact exOts|]. split; [eexists; split; [vm_compute; reflexivity|vm_compute; reflexivity]|]. eexists _, _. split; vm_compute; reflexivity. Qed.

(** * C38 *)

(** Two threads with one item each, one hash function. Both write the buffer before either reads it. *)
Theorem C38_hash_schedule_refuted : exists aes ro seed m nh buf inputs sched s,
  length buf = ((nh + 1) / 2)%nat /\ hashRun m sched (hashStart aes ro seed nh buf inputs) = s /\ (forall ops, ops ∈ hsOps s -> ops = []) /\
  hsOut s <> map (fun l => concat (map (filterPos aes ro seed m nh) l)) inputs.
Proof.
  exists (fun k _ => k), (fun _ x => x), 0, 100, 1%nat, [0], [[1]; [2]], [0; 1; 0; 1]%nat. eexists. split; [done|]. split; [reflexivity|].
  split; [|by vm_compute]. apply Forall_forall. vm_compute. repeat constructor.
Qed.
Print Assumptions C38_hash_schedule_refuted.

(** What holds: if no thread is interrupted between writing the buffer and reading it for one item ([order]: whose
    item is next), every thread gets the positions of its items. *)
Theorem C38_hash_schedule_partial aes ro seed m nh order buf inputs s : length buf = ((nh + 1) / 2)%nat ->
  hashRun m (concat (map (fun t => replicate ((nh + 1) / 2 + nh) t) order)) (hashStart aes ro seed nh buf inputs) = s ->
  (forall ops, ops ∈ hsOps s -> ops = []) ->
  hsOut s = map (fun l => concat (map (filterPos aes ro seed m nh) l)) inputs.
Proof. exact (hash_atomic_done aes ro seed m nh order buf inputs s). Qed.
Print Assumptions C38_hash_schedule_partial.
Example C38_example : let s := hashRun 100 (concat (map (fun t => replicate (2 + 3) t) [1; 0; 1]%nat)) (hashStart exAes exRo 5 3 [0; 0] [[10]; [20; 30]]) in
  hsOps s = [[]; []] /\ hsOut s = [filterPos exAes exRo 5 100 3 10; filterPos exAes exRo 5 100 3 20 ++ filterPos exAes exRo 5 100 3 30].
Proof. split; vm_compute; reflexivity. Qed.

(** One channel: any schedule. *)
Theorem C38_one_channel_partial aes ro seed m nh sched buf items s : length buf = ((nh + 1) / 2)%nat ->
  hashRun m sched (hashStart aes ro seed nh buf [items]) = s -> (forall ops, ops ∈ hsOps s -> ops = []) ->
  hsOut s = [concat (map (filterPos aes ro seed m nh) items)].
Proof. exact (hash_single aes ro seed m nh sched buf items s). Qed.
Print Assumptions C38_one_channel_partial.
Example C38_one_channel_example : let s := hashRun 100 (replicate 10 0%nat) (hashStart exAes exRo 5 3 [0; 0] [[10; 20]]) in
  hsOps s = [[]] /\ hsOut s = [filterPos exAes exRo 5 100 3 10 ++ filterPos exAes exRo 5 100 3 20].
Proof. split; vm_compute; reflexivity. Qed.

(** * C39 *)

(** A repeated entry: the promise is set a second time after the loop, so [sendInput] throws with running threads. *)
Theorem C39_invalid_permutation_refuted : exists aes ro seed m nh T n msgs sampled S perm,
  length S = n /\ length perm = m /\ length msgs = length sampled /\ (forall i, i ∈ perm -> (N.to_nat i < length sampled)%nat) /\
  ~ NoDup perm /\ senderRun aes ro seed m nh T n msgs sampled S perm = Thrown None.
Proof.
  exists exAes, exRo, 5, 2%nat, 1%nat, 1%nat, 1%nat, [(1, 2); (3, 4)], [false; false], [7], [1; 1]. split; [done|]. split; [done|]. split; [done|].
  split; [apply Forall_forall; repeat constructor|]. split; [by apply (bool_decide_unpack _); vm_compute|]. by vm_compute.
Qed.
Print Assumptions C39_invalid_permutation_refuted.

(** A permutation entry beyond the OTs is used as an index without a check. *)
Theorem C39_out_of_range_refuted : exists aes ro seed m nh T n msgs sampled S perm,
  length S = n /\ length perm = m /\ length msgs = length sampled /\ (forall i, i ∈ perm -> i < 2 ^ 32) /\
  senderRun aes ro seed m nh T n msgs sampled S perm = UB.
Proof.
  exists exAes, exRo, 5, 2%nat, 1%nat, 1%nat, 1%nat, [(1, 2); (3, 4)], [false; false], [7], [900; 1]. split; [done|]. split; [done|]. split; [done|].
  split; [apply Forall_forall; repeat constructor|]. by vm_compute.
Qed.
Print Assumptions C39_out_of_range_refuted.

(** What holds: for in-range permutations no mask leaves the sender unless the entries are distinct and unopened. *)
Theorem C39_invalid_permutation_partial aes ro seed m nh T n msgs sampled S perm :
  (0 < T)%nat -> N.of_nat n * N.of_nat T < 2 ^ 64 -> (0 < m)%nat -> length S = n -> length perm = m -> length msgs = length sampled ->
  (forall i, i ∈ perm -> (N.to_nat i < length sampled)%nat) ->
  ((NoDup perm /\ forall i, i ∈ perm -> sampled !! N.to_nat i = Some false) ->
     exists masks, senderRun aes ro seed m nh T n msgs sampled S perm = Done (Some masks)) /\
  (~ (NoDup perm /\ forall i, i ∈ perm -> sampled !! N.to_nat i = Some false) ->
     senderRun aes ro seed m nh T n msgs sampled S perm = Thrown None).
Proof.
  intros HT Hw Hm HS LP LM B. split; [intros [ND F]; by apply senderRun_valid|intros H; by apply senderRun_invalid].
Qed.
Print Assumptions C39_invalid_permutation_partial.
Example C39_example :
  senderRun exAes exRo 5 2 1 1 1 [(1, 2); (3, 4); (5, 6)] [false; false; true] [7] [1; 0] = Done (Some [[4]]) /\
  senderRun exAes exRo 5 2 1 1 1 [(1, 2); (3, 4); (5, 6)] [false; false; true] [7] [1; 2] = Thrown None.
Proof. split; vm_compute; reflexivity. Qed.

(** * C75 *)

(** For the tabulated set sizes: when at most [thr] one-choices were opened and enough OTs are left, no set makes the
    receiver run out of ones. *)
Theorem C75_table_fits (n total numOnes thr h bf : N) aes ro seed T zeros ones rmsgs smsgs sampled R S mergeOrd :
  (n, (total, numOnes, thr, h, bf)) ∈ aknTable -> (0 < T)%nat -> n * N.of_nat T < 2 ^ 64 ->
  N.of_nat (length R) = n -> N.of_nat (length S) = n ->
  otsOk zeros ones rmsgs smsgs sampled -> numOnes <= N.of_nat (length ones) + thr -> bf <= N.of_nat (length zeros + length ones) ->
  exists perm mp masks,
    recvFirst aes ro seed (N.to_nat bf) (N.to_nat h) T (N.to_nat n) total zeros ones rmsgs R mergeOrd = Done (perm, mp) /\
    senderRun aes ro seed (N.to_nat bf) (N.to_nat h) T (N.to_nat n) smsgs sampled S perm = Done (Some masks).
Proof.
  intros Hrow HT Hw HR HS HO L1 L2. pose proof (proj1 (Forall_forall _ _) aknTable_ok _ Hrow) as (A & B & C & D & E). cbn beta iota in *.
  assert (0 < n * h).
  { assert (Forall (fun r : N * (N * N * N * N * N) => 0 < r.1 * r.2.1.2) aknTable) as F by (repeat constructor; done).
    exact (proj1 (Forall_forall _ _) F _ Hrow). }
  destruct (filter_ok aes ro seed (N.to_nat bf) (N.to_nat h) (N.to_nat n) R) as (bf' & E' & L & Cn & _); [lia|lia|].
  destruct (recvFirst_ok aes ro seed (N.to_nat bf) (N.to_nat h) T (N.to_nat n) total zeros ones rmsgs smsgs sampled R S) with (mergeOrd := mergeOrd)
    as (? & perm & _ & _ & _ & _ & _ & _ & E3 & E4); try done; try lia; [|eauto].
  rewrite E'. cbn [default]. unfold id. nia.
Qed.
Print Assumptions C75_table_fits.
Example C75_example : (1024, (331450, 105905, 9648, 94, 302436)) ∈ aknTable /\ 105905 <= 96257 + 9648 /\ 302436 <= 331450.
Proof. split; [by apply (bool_decide_unpack _); vm_compute|]. done. Qed.

(** * C76 *)

(** [pos x]: filter positions. The receiver reports each common item once, whatever the number of channels and the order in
    which the threads finish, when the encodings' low halves of the receiver's items are distinct and no sender item that is
    not common hits one of them. *)
Theorem C76_rr16_exact aes ro seed m nh T n total zeros ones rmsgs smsgs sampled R S mergeOrd outOrd old :
  (0 < T)%nat -> N.of_nat n * N.of_nat T < 2 ^ 64 -> (0 < m)%nat -> total <= 2 ^ 32 -> length R = n -> length S = n ->
  otsOk zeros ones rmsgs smsgs sampled -> (m <= length zeros + length ones)%nat -> (n * nh <= length ones)%nat ->
  mergeOrd ≡ₚ seq 0 T -> outOrd ≡ₚ seq 0 T ->
  exists perm mp, recvFirst aes ro seed m nh T n total zeros ones rmsgs R mergeOrd = Done (perm, mp) /\
    let key x := xorPerm (sendMsg smsgs) perm (filterPos aes ro seed (N.of_nat m) nh x) mod 2 ^ 64 in
    exists out, rr16Run aes ro seed m nh T n total zeros ones rmsgs smsgs sampled R S mergeOrd outOrd old = Done (old ++ out) /\
      (NoDup (map key R) -> (forall x y, x ∈ R -> y ∈ S -> key x = key y -> x = y) -> out ≡ₚ commonPositions R S).
Proof.
  intros HT Hw Hm Ht HR HS HO LL L1 HM HOut.
  destruct (filter_ok aes ro seed m nh n R Hm HR) as (bf & E & L & C & K).
  assert ((countOnes (default [] (setBits (concat (map (filterPos aes ro seed (N.of_nat m) nh) R)) (replicate m false))) <= length ones)%nat) as C'
    by (rewrite E; cbn [default]; unfold id; lia).
  destruct (recvFirst_ok aes ro seed m nh T n total zeros ones rmsgs smsgs sampled R S HT Hw Hm Ht HR HS HO mergeOrd C' LL) as
    (bf' & perm & E1 & E2 & LP & ND & B & X & E3 & E4).
  eexists perm, _. split; [exact E3|]. intros key.
  destruct (run_exact aes ro seed m nh T n total zeros ones rmsgs smsgs sampled R S HT Hw Hm Ht HR HS HO mergeOrd outOrd old HM HOut C' LL) as
    (perm' & (bf'' & E1' & E2') & KK & out & EO & P).
  assert (perm' = perm) as -> by congruence. exists out. split; [exact EO|]. intros NK INJ.
  assert (map (fun x => xorPerm (recvMsg rmsgs) perm (filterPos aes ro seed (N.of_nat m) nh x) mod 2 ^ 64) R = map key R) as EQ.
  { apply map_ext_in. intros x Hx. apply KK. by apply elem_of_list_In. }
  rewrite EQ in P. etrans; [exact (P NK)|]. change (commonPositions (map key R) (map key S) ≡ₚ commonPositions R S).
  rewrite (commonPositions_enc key R S (map key S) NK); [done|by rewrite map_length| |].
  - intros j y Hy _. by rewrite (list_lookup_fmap key), Hy.
  - intros x j y Hx Hy Hk. rewrite (list_lookup_fmap key), Hy in Hk. cbn in Hk. injection Hk as Hk.
    apply INJ; [done|by eapply elem_of_list_lookup_2|done].
Qed.
Print Assumptions C76_rr16_exact.
Example C76_example : exRun 1 [0]%nat [0]%nat = Done [2; 0] /\ exRun 2 [1; 0]%nat [1; 0]%nat = Done [0; 2] /\ commonPositions exR exS = [2; 0].
Proof. split_and!; vm_compute; reflexivity. Qed.
