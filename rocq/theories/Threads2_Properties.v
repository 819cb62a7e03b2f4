(** Scheduling of ECDH, DCW and DKT: property theorems. *)
From stdpp Require Import sets.
From Verif Require Import Base Partition_Model Sched_Model Sched_Spec Threads_Model Threads_Proofs6 Threads2_Model Threads2_Proofs Threads2_Proofs2 Threads2_Proofs3.

(** Every schedule with sets of equal size ends with all threads of both parties finished. *)
Theorem C140_ecdh_completes P : eNS P = eNR P -> completes (ecdhScripts P).
Proof. exact (ecdh_completes P). Qed.
Theorem C140_dcw_completes P : wNS P = wNR P -> completes (dcwScripts P).
Proof. exact (dcw_completes P). Qed.
Theorem C140_dkt_completes P : kNS P = kNR P -> completes (dktScripts P).
Proof. exact (dkt_completes P). Qed.
Print Assumptions C140_ecdh_completes.
Print Assumptions C140_dcw_completes.
Print Assumptions C140_dkt_completes.
Definition exE : ecdh := mkEcdh 5 5 33 2.
Definition exW : dcw := mkDcw 16 [(true, 32); (false, 48)] (fun _ n => [(false, n); (true, 16)]) 2 2 3.
Definition exK : dkt := mkDkt 130 130 33 32 2.
Example C140_example : option_map (@length _) (wholeRun (ecdhScripts exE)) = Some 32%nat /\ option_map (@length _) (wholeRun (dcwScripts exW)) = Some 38%nat /\
  option_map (@length _) (wholeRun (dktScripts exK)) = Some 75%nat.
Proof. vm_compute. done. Qed.
(** With sets of unequal size, which [init] with its single set size does not announce, some receive of ECDH and of DKT gets a message of the wrong size. *)
Theorem C140_ecdh_unequal : exists P tr s, eNS P <> eNR P /\ exec (start (ecdhScripts P)) tr s /\ wrongSize s.
Proof. destruct ecdh_wrong as (tr & s & H). by exists eW, tr, s. Qed.
Theorem C140_dkt_unequal : exists P tr s, kNS P <> kNR P /\ exec (start (dktScripts P)) tr s /\ wrongSize s.
Proof. destruct dkt_wrong as (tr & s & H). by exists kW, tr, s. Qed.
Print Assumptions C140_ecdh_unequal.
Print Assumptions C140_dkt_unequal.

(** Whatever the sender does, no receiver thread looks up masks before all its masks are in the table, and in DKT none is merged before all threads have computed theirs. *)
Theorem C141_ecdh_lookups P adv : peer false adv -> always_before (map (eReceiver P) (seq 0 (eT P)) ++ adv) (among (eT P) isInsert) (among (eT P) isLookup).
Proof. exact (ecdh_lookups P adv). Qed.
Theorem C141_dkt_lookups P adv : peer false adv -> always_before (map (kReceiver P) (seq 0 (kT P)) ++ adv) (among (kT P) isInsert) (among (kT P) isLookup).
Proof. exact (dkt_lookups P adv). Qed.
Theorem C141_dkt_hashed P adv : peer false adv -> always_before (map (kReceiver P) (seq 0 (kT P)) ++ adv) (among (kT P) isHash) (among (kT P) isInsert).
Proof. exact (dkt_hashed P adv). Qed.
Print Assumptions C141_ecdh_lookups.
Print Assumptions C141_dkt_lookups.
Print Assumptions C141_dkt_hashed.
(** The sender of the repository, two threads. *)
Example C141_example : peer false (map (kSender exK) (seq 0 2)) /\
  option_map (List.filter (fun e => match e with (_, Act MasksSent) => false | (_, Act _) => true | _ => false end)) (wholeRun (map (kReceiver exK) (seq 0 2) ++ map (kSender exK) (seq 0 2))) =
  Some [(0%nat, Act Hashed); (1%nat, Act Hashed); (0%nat, Act Inserted); (0%nat, Act LookedUp); (1%nat, Act LookedUp)].
Proof. split; [let l := eval vm_compute in (map (kSender exK) (seq 0 2)) in change (map (kSender exK) (seq 0 2)) with l; repeat constructor; set_solver|vm_compute; done]. Qed.
Example C141_example_ecdh : option_map (List.filter (fun e => match e with (_, Act MasksSent) => false | (_, Act _) => true | _ => false end)) (wholeRun (map (eReceiver exE) (seq 0 2) ++ map (eSender exE) (seq 0 2))) =
  Some [(0%nat, Act Inserted); (1%nat, Act Inserted); (0%nat, Act LookedUp); (1%nat, Act LookedUp)].
Proof. vm_compute. done. Qed.

(** ECDH: whatever the receiver does, no mask leaves the sender before the points have been received on all channels. *)
Theorem C142_ecdh P adv : peer true adv -> always_before (map (eSender P) (seq 0 (eT P)) ++ adv) (among (eT P) isCheck) (among (eT P) isMask).
Proof. exact (ecdh_checks P adv). Qed.
Print Assumptions C142_ecdh.
(** DKT: not so. *)
Theorem C142_dkt_refuted : exists P, kNS P = kNR P /\ ~ always_before (dktScripts P) (among (kT P) isCheck) (among (kT P) isMask).
Proof. exists kW2. split; [done|exact dkt_early]. Qed.
Print Assumptions C142_dkt_refuted.
(** A thread waits for the proofs of its own part only. *)
Theorem C142_dkt_partial P adv t : (t < kT P)%nat -> always_before (map (kSender P) (seq 0 (kT P)) ++ adv) (fun e => e.1 = t /\ receives e.2) (fun e => e.1 = t /\ isMask e.2).
Proof. exact (dkt_own P adv t). Qed.
Print Assumptions C142_dkt_partial.
Example C142_example : option_map (List.filter (fun e => match e with (1%nat, Act MasksSent) | (1%nat, Get _ _ _) => true | _ => false end)) (wholeRun (map (kSender exK) (seq 0 2) ++ map (kReceiver exK) (seq 0 2))) =
  Some [(1%nat, Get (Chan 1 false) 0 6336); (1%nat, Get (Chan 1 false) 1 99); (1%nat, Get (Chan 1 false) 2 2048); (1%nat, Get (Chan 1 false) 3 32); (1%nat, Act MasksSent)].
Proof. vm_compute. done. Qed.
