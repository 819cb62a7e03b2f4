(** Property theorems about the masks as differences in PRTY (C104 - C107). *)
From Verif Require Import Base Prty_Model PrtyDiff_Model PrtyDiff_Spec PrtyDiff_Proofs PrtyDiff_Proofs2 File_Spec.
Local Open Scope nat_scope.

(** * C104: the receiver stays within the message *)

(** Every message is read beyond its end. *)
Theorem C104_overread_refuted h b g1 g2 buf : 0 < h -> 0 < b -> decodeStrict h b g1 g2 buf = UB.
Proof. exact (strict_ub h b g1 g2 buf). Qed.
Print Assumptions C104_overread_refuted.
Example C104_example : hBytes 1024 = 7 /\ bBytes 1024 1024 = 8 /\ decodeStrict 7 8 0 0 (streamBytes 7 8 [5; 700; 900]%N ++ replicate 9 0%N) = UB.
Proof. repeat split; by vm_compute. Qed.

(** * C105: the sender stays within its buffer *)

(** 64 items of the receiver and 8 of the sender: 49 bytes are written into 48. *)
Theorem C105_send_refuted : exists n1 ms, NoDup ms /\ Forall (fun m => (m < 2 ^ 128)%N) ms /\ escapes (hBytes n1) ms = 0 /\ sendBest (hBytes n1) (bBytes n1 (N.of_nat (length ms))) ms = UB.
Proof.
  exists 64%N, [1; 2; 3; 4; 5; 6; 7; 8]%N. split; [apply (bool_decide_unpack _); by vm_compute|]. split; [repeat constructor|]. split; by vm_compute.
Qed.
Print Assumptions C105_send_refuted.
(** The exact condition. *)
Theorem C105_send_exact h b size ms : h <= 16 -> 0 < length ms ->
  encode h b size ms = if b + h * (length ms - 1) + b * escapes h ms <=? size then Done (streamBytes h b ms ++ replicate (size - length (streamBytes h b ms)) 0%N) else UB.
Proof. exact (encode_exact h b size ms). Qed.
Print Assumptions C105_send_exact.
(** A hundred masks without an all-ones difference fit, and there is room behind them. *)
Theorem C105_send_partial h b ms : 6 <= h -> h <= b -> b <= 16 -> 100 <= length ms -> escapes h ms = 0 -> exists pad, 0 < pad /\ sendBest h b ms = Done (streamBytes h b ms ++ replicate pad 0%N).
Proof. exact (send_fits h b ms). Qed.
Print Assumptions C105_send_partial.
Example C105_example : hBytes 64 = 6 /\ bBytes 64 8 = 7 /\ bufSize 8 6 = 48 /\ bufSize 100 6 = 612 /\ escapes 6 [8; 7; 9]%N = 1.
Proof. repeat split; by vm_compute. Qed.

(** * C106: the receiver finds the common masks *)

(** Two local masks with the same first four bytes: the second one is not found. *)
Theorem C106_key_refuted : exists es ms e vs, e ∈ es /\ e.1 ∈ ms /\ NoDup (map fst es) /\ Forall2 (standsFor 7) vs ms /\ e.2 ∉ lookups (emplace32 es []) vs.
Proof.
  exists [(5%N, 0); ((5 + 2 ^ 32)%N, 1)], [5 + 2 ^ 32; 9]%N, ((5 + 2 ^ 32)%N, 1), [((5 + 2 ^ 32)%N, 8); (9%N, 7)]. split; [right; left|]. split; [left|]. split; [apply (bool_decide_unpack _); by vm_compute|].
  split; [repeat constructor; cbn; lia|]. intros H. apply elem_of_list_In in H. by vm_compute in H.
Qed.
Print Assumptions C106_key_refuted.
(** 128 items of the receiver and 7 of the sender: the message fits exactly and the last mask is not looked at. *)
Theorem C106_last_refuted : exists n1 ms es buf vs, let h := hBytes n1 in let b := bBytes n1 (N.of_nat (length ms)) in
  sendBest h b ms = Done buf /\ distinctLow h ms /\ NoDup (map (fun e : N * nat => key32 e.1) es) /\ (forall e, e ∈ es -> e.1 ∈ ms) /\ es <> [] /\
  decode (length buf) h b (peekMem (fun i => nth i buf 0%N)) 0 0 = Done vs /\ lookups (emplace32 es []) vs = [].
Proof.
  exists 128%N, [10; 20; 31; 47; 58; 64; 71]%N, [(71%N, 3)]. eexists _, _. cbn zeta. split; [by vm_compute|]. split; [vm_compute; repeat split; discriminate|]. split; [apply NoDup_singleton|].
  split; [intros e He; apply elem_of_list_singleton in He as ->; by do 6 right; left|]. split; [done|]. split; [by vm_compute|by vm_compute].
Qed.
Print Assumptions C106_last_refuted.
(** The zeros behind the masks of a message are decoded as masks: a local mask of zero is found that the sender does not have. *)
Theorem C106_zero_refuted : exists h b size ms buf es vs, distinctLow h ms /\ encode h b size ms = Done buf /\ NoDup (map (fun e : N * nat => key32 e.1) es) /\
  decode (length buf) h b (peekMem (fun i => nth i buf 0%N)) 0 0 = Done vs /\ exists e, e ∈ es /\ e.2 ∈ lookups (emplace32 es []) vs /\ forall m, m ∈ ms -> low h m <> low h e.1.
Proof.
  exists 7, 8, 60, [90; 50; 49; 1000]%N. eexists _, [(0%N, 3)], _. split; [vm_compute; repeat split; discriminate|]. split; [by vm_compute|]. split; [apply NoDup_singleton|]. split; [by vm_compute|].
  exists (0%N, 3). split; [left|]. split; [apply elem_of_list_In; vm_compute; by left|]. intros m Hm. repeat (apply elem_of_cons in Hm as [->|Hm]; [by vm_compute|]). by apply elem_of_nil in Hm.
Qed.
Print Assumptions C106_zero_refuted.
(** Reads behind the message yield whatever is there. If the local masks differ in four bytes, the neighbouring masks of the sender in [h] bytes, and there is
    room behind the masks, every common mask is found; without room, all but the last. What is found is a mask of the sender in [h] bytes, or a local mask whose [b] bytes are
    zero: the padding of the message is decoded as masks. *)
Theorem C106_match_partial mem h b size ms buf g1 g2 es : 4 <= h -> h <= 16 -> h <= b -> Forall (fun m => (m < 2 ^ 128)%N) ms -> distinctLow h ms -> encode h b size ms = Done buf -> holdsBuf mem buf ->
  NoDup (map (fun e : N * nat => key32 e.1) es) ->
  exists vs, decode (length buf) h b (peekMem mem) g1 g2 = Done vs /\
    (forall e, e ∈ es -> e.1 ∈ take (length ms - 1 + (if length (streamBytes h b ms) <? size then 1 else 0)) ms -> e.2 ∈ lookups (emplace32 es []) vs) /\
    (forall i, i ∈ lookups (emplace32 es []) vs -> exists e, e ∈ es /\ e.2 = i /\ ((exists m, m ∈ ms /\ low h m = low h e.1) \/ low b e.1 = 0%N)).
Proof. exact (match_ok mem h b size ms buf g1 g2 es). Qed.
Print Assumptions C106_match_partial.
Theorem C106_best_partial mem h b ms g1 g2 es : 6 <= h -> h <= b -> b <= 16 -> 100 <= length ms -> escapes h ms = 0 -> Forall (fun m => (m < 2 ^ 128)%N) ms -> distinctLow h ms -> NoDup (map (fun e : N * nat => key32 e.1) es) ->
  exists buf, sendBest h b ms = Done buf /\ (holdsBuf mem buf -> exists vs, decode (length buf) h b (peekMem mem) g1 g2 = Done vs /\
    (forall e, e ∈ es -> e.1 ∈ ms -> e.2 ∈ lookups (emplace32 es []) vs) /\
    (forall i, i ∈ lookups (emplace32 es []) vs -> exists e, e ∈ es /\ e.2 = i /\ ((exists m, m ∈ ms /\ low h m = low h e.1) \/ low b e.1 = 0%N))).
Proof. exact (best_ok mem h b ms g1 g2 es). Qed.
Print Assumptions C106_best_partial.
Example C106_example : let buf := streamBytes 7 8 [90; 50; 49; 1000]%N ++ replicate 3 0%N in encode 7 8 40 [90; 50; 49; 1000]%N = Done buf /\
  decode (length buf) 7 8 (peekMem (fun i => nth i buf 0%N)) 1000 1000 = Done [(90%N, 8); ((2 ^ 56 + 50)%N, 7); (49%N, 8); (1000%N, 7)] /\
  lookups (emplace32 [(1000%N, 0); (50%N, 1); (7%N, 2)] []) [(90%N, 8); ((2 ^ 56 + 50)%N, 7); (49%N, 8); (1000%N, 7)] = [1; 0].
Proof. cbn zeta. split; [by vm_compute|]. split; by vm_compute. Qed.

(** * C107: every mask is in a message of the big polynomial *)

(** Each thread has one mask: no message is sent. Fewer masks than threads: the first thread leaves the arrays. Two masks: nine bytes into six. *)
Theorem C107_steps_refuted : (forall h b step t ms, t < length ms -> sendBig h b step (length ms) t ms = Done []) /\ (forall h b step T ms, length ms < T -> sendBig h b step T 0 ms = UB) /\
  sendBig (hBytes 2) (bBytes 2 2) (2 ^ 14) 1 0 [5; 9]%N = UB.
Proof. split; [exact big_one|]. split; [exact big_none|by vm_compute]. Qed.
Print Assumptions C107_steps_refuted.
(** Two masks for each thread at least: the steps cover all masks. *)
Theorem C107_steps_partial step n T : 0 < step -> 0 < T -> 2 * T <= n ->
  (forall t, t < T -> exists ss, diffSteps step n T t = Some ss) /\
  forall j, j < n -> exists t ss s c, t < T /\ diffSteps step n T t = Some ss /\ (s, c) ∈ ss /\ s <= j <= s + c /\ s + c < n.
Proof. exact (steps_cover step n T). Qed.
Print Assumptions C107_steps_partial.
(** The messages of a thread are the encoded steps, unless one of them does not fit its buffer. *)
Theorem C107_messages h b step T t ms ss : diffSteps step (length ms) T t = Some ss ->
    ((exists s c, (s, c) ∈ ss /\ encode h b (bufSize c h) (take (c + 1) (drop s ms)) = UB) /\ sendBig h b step T t ms = UB) \/
    exists msgs, sendBig h b step T t ms = Done msgs /\ Forall2 (fun p m => encode h b (bufSize p.2 h) (take (p.2 + 1) (drop p.1 ms)) = Done m) ss msgs.
Proof. exact (proj2 (big_ok h b step T t ms) ss). Qed.
Print Assumptions C107_messages.
Example C107_example : diffSteps 4 20 2 1 = Some [(10, 4); (14, 4); (18, 1)].
Proof. by vm_compute. Qed.
