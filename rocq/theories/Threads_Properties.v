(** Scheduling of the multi-threaded protocols: property theorems. *)
From stdpp Require Import sets.
From Verif Require Import Base Partition_Model Sched_Model Sched_Spec Threads_Model Threads_Proofs2 Threads_Proofs3 Threads_Proofs4 Threads_Proofs5 Threads_Proofs6.

(** Every schedule of the online phase of RR17a ends with all threads finished. *)
Theorem C126_rr17a_completes P : completes (rr17aScripts P).
Proof. exact (rr17a_completes P). Qed.
Print Assumptions C126_rr17a_completes.
(** Two threads with one bin each. Conversations of the checks: one message each way. One of the schedules to the end. *)
Definition exA : rr17a := mkRr17a 2 2 1 2 1 2 (fun _ => [(true, 5)]) (fun _ => [(false, 6)]).
Example C126_example : option_map (@length _) (wholeRun (rr17aScripts exA)) = Some 56%nat.
Proof. vm_compute. done. Qed.
Example C126_scripts : length (rr17aScripts exA) = 7%nat /\ rr17aScripts exA !! 3%nat = Some
  [Snd (Barrier false 0) 0; Wai (Barrier false 0) 2; Snd (Chan 1 false) 1; Get (Chan 1 true) 0 1; Get (Chan 1 true) 1 5; Snd (Chan 1 false) 6;
   Act Inserted; Snd (Barrier false 1) 0; Wai (Barrier false 1) 2; Act LookedUp; Get (Chan 1 true) 2 1; Snd (Barrier false 4) 0].
Proof. vm_compute. done. Qed.

(** RR17b: not for every number of threads, because the parties split the bins differently. *)
Theorem C127_rr17b_completes_refuted : exists P tr s, (bT P <= N.to_nat (bBins P))%nat /\ exec (start (rr17bScripts P)) tr s /\ wrongSize s.
Proof. destruct rr17b_wrong as (tr & s & H & Hw). exists bW, tr, s. split; [vm_compute; lia|done]. Qed.
Print Assumptions C127_rr17b_completes_refuted.
(** It does if the number of threads divides the number of bins. *)
Theorem C127_rr17b_completes_partial P : (bT P <> 0)%nat -> bBins P + N.of_nat (bT P) < 2 ^ 64 -> bBins P * N.of_nat (bT P) < 2 ^ 64 -> (N.of_nat (bT P) | bBins P) -> completes (rr17bScripts P).
Proof. intros. apply rr17b_completes. by apply rr17b_same. Qed.
Print Assumptions C127_rr17b_completes_partial.
Definition exB : rr17b := mkRr17b 2 4 1 3 1 1 2 (fun _ => [(true, 5); (false, 6)]).
Example C127_example : (N.of_nat (bT exB) | bBins exB) /\ option_map (@length _) (wholeRun (rr17bScripts exB)) = Some 51%nat.
Proof. split; [by exists 2|vm_compute; done]. Qed.

(** Every schedule of the online phase of GRR18 ends with all threads finished. *)
Theorem C128_grr18_completes P : completes (grr18Scripts P).
Proof. exact (grr18_completes P). Qed.
Print Assumptions C128_grr18_completes.
Definition exG : grr18 := mkGrr18 1 3 2 1 2 [1; 2; 1] [2; 1; 1] 5 (fun _ _ => 7) (fun _ _ => 8) (fun _ _ => 9).
Example C128_example : option_map (@length _) (wholeRun (grr18Scripts exG)) = Some 98%nat.
Proof. vm_compute. done. Qed.

(** Every schedule of the online phase of RR16 (with an accepted permutation) ends with all threads finished, whichever receiver thread is the first to reach the merge. *)
Theorem C129_rr16_completes P : (cFirst P < cT P)%nat -> completes (rr16Scripts P).
Proof. exact (rr16_completes P). Qed.
Print Assumptions C129_rr16_completes.
Definition exC : rr16 := mkRr16 5 16 3 1.
Example C129_example : (cFirst exC < cT exC)%nat /\ option_map (@length _) (wholeRun (rr16Scripts exC)) = Some 52%nat.
Proof. split; [vm_compute; lia|vm_compute; done]. Qed.

(** Whatever the receiver does, no mask leaves the sender on any channel before all messages have been received and all checks done on all channels. *)
Theorem C130_rr17a P adv : peer true adv -> always_before (map (aSender P) (seq 0 (aT P)) ++ adv) (among (aT P) isCheck) (among (aT P) isMask).
Proof. exact (rr17a_checks P adv). Qed.
Theorem C130_rr17b P adv : peer true adv -> always_before (map (bSender P) (seq 0 (bT P)) ++ adv) (among (bT P) isCheck) (among (bT P) isMask).
Proof. exact (rr17b_checks P adv). Qed.
Theorem C130_grr18 P adv : peer true adv -> always_before (map (gSender P) (seq 0 (gT P)) ++ adv) (among (gT P) isCheck) (among (gT P) isMask).
Proof. exact (grr18_checks P adv). Qed.
(** RR16: the check is that of the permutation, by the calling thread (number [cT P]). *)
Theorem C130_rr16 P adv : peer true adv ->
  always_before (map (cSender P) (seq 0 (cT P)) ++ cSenderMain P :: adv) (fun e => e.1 = cT P /\ isCheck e.2) (among (cT P) isMask).
Proof. exact (rr16_checks P adv). Qed.
Print Assumptions C130_rr17a.
Print Assumptions C130_rr17b.
Print Assumptions C130_grr18.
Print Assumptions C130_rr16.
(** A receiver that answers at once and the permutation thread: both threads of the sender get to their masks, each after both checks. *)
Definition eager : list (list ev) := [[Snd (Chan 0 false) 1; Snd (Chan 1 false) 1; Snd (Chan 0 false) 6; Snd (Chan 1 false) 6]; [Snd (Barrier true permB) 0]].
Example C130_example : option_map (List.filter (fun e => match e with (_, Act Checked) | (_, Act MasksSent) => true | _ => false end))
  (wholeRun (map (aSender exA) (seq 0 2) ++ eager)) = Some [(0%nat, Act Checked); (1%nat, Act Checked); (0%nat, Act MasksSent); (1%nat, Act MasksSent)].
Proof. vm_compute. done. Qed.

(** Whatever the sender does, no receiver thread looks up in the table of masks before all receiver threads have inserted into it. *)
Theorem C131_rr17a P adv : peer false adv -> always_before (map (aReceiver P) (seq 0 (aT P)) ++ adv) (among (aT P) isInsert) (among (aT P) isLookup).
Proof. exact (rr17a_lookups P adv). Qed.
Theorem C131_grr18 P adv : peer false adv -> always_before (map (gReceiver P) (seq 0 (gT P)) ++ adv) (among (gT P) isInsert) (among (gT P) isLookup).
Proof. exact (grr18_lookups P adv). Qed.
Theorem C131_rr16 P adv : (cFirst P < cT P)%nat -> peer false adv -> always_before (map (cReceiver P) (seq 0 (cT P)) ++ adv) (among (cT P) isInsert) (among (cT P) isLookup).
Proof. intros H. exact (rr16_merged P H adv). Qed.
(** RR16: the permutation is computed from a filter that all threads have completed. *)
Theorem C131_rr16_filter P adv : peer false adv -> always_before (map (cReceiver P) (seq 0 (cT P)) ++ adv) (among (cT P) isHash) (among (cT P) (isSend (Chan 0 false))).
Proof. exact (rr16_hashed P adv). Qed.
Print Assumptions C131_rr17a.
Print Assumptions C131_grr18.
Print Assumptions C131_rr16.
Print Assumptions C131_rr16_filter.
(** A sender that sends all masks at once. *)
Definition hasty3 : list (list ev) := [[Snd (Chan 0 true) 1; Snd (Chan 1 true) 2; Snd (Chan 2 true) 2]].
Example C131_example : peer false hasty3 /\ option_map (List.filter (fun e => match e with (_, Act Inserted) | (_, Act LookedUp) => true | _ => false end))
  (wholeRun (map (cReceiver exC) (seq 0 3) ++ hasty3)) =
  Some [(0%nat, Act Inserted); (2%nat, Act Inserted); (1%nat, Act Inserted); (0%nat, Act LookedUp); (1%nat, Act LookedUp); (2%nat, Act LookedUp)].
Proof. split; [repeat constructor; set_solver|vm_compute; done]. Qed.

(** RR17b has no such barrier: a sender that does not wait for the checks makes one thread search the tag table while another inserts. *)
Theorem C132_rr17b_refuted : exists P adv, (bT P <= N.to_nat (bBins P))%nat /\ peer false adv /\
  ~ always_before (map (bReceiver P) (seq 0 (bT P)) ++ adv) (among (bT P) isInsert) (among (bT P) isLookup).
Proof. exists bW2, hasty. split; [vm_compute; lia|exact rr17b_early]. Qed.
Print Assumptions C132_rr17b_refuted.
(** With the sender of the repository the order holds, through the messages: if the threads divide the bins evenly, or each thread of the receiver says something in its check. *)
Theorem C132_rr17b_partial P : (forall u, (u < bT P)%nat -> bCorrS P u <> [] \/ (0 < heard true (bChk P u))%nat) ->
  always_before (rr17bScripts P) (inThreads (bT P) (bT P) isInsert) (inThreads (bT P) (bT P) isLookup).
Proof. exact (rr17b_inserted P). Qed.
Theorem C132_rr17b_even_partial P : (bT P <> 0)%nat -> bBins P + N.of_nat (bT P) < 2 ^ 64 -> bBins P * N.of_nat (bT P) < 2 ^ 64 -> (N.of_nat (bT P) | bBins P) -> bBins P <> 0 -> bStep P <> 0 ->
  always_before (rr17bScripts P) (inThreads (bT P) (bT P) isInsert) (inThreads (bT P) (bT P) isLookup).
Proof. intros. apply rr17b_inserted. intros u Hu. left. by apply rr17b_nonempty. Qed.
Print Assumptions C132_rr17b_partial.
Print Assumptions C132_rr17b_even_partial.
Example C132_example : option_map (List.filter (fun e => match e with (i, Act Inserted) | (i, Act LookedUp) => (2 <=? i)%nat | _ => false end)) (wholeRun (rr17bScripts exB)) =
  Some [(2%nat, Act Inserted); (3%nat, Act Inserted); (2%nat, Act LookedUp); (2%nat, Act LookedUp); (3%nat, Act LookedUp)].
Proof. vm_compute. done. Qed.
