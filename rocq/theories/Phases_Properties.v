(** Scheduling of KKRT and PRTY: property theorems. *)
From stdpp Require Import sets.
From Verif Require Import Base Partition_Model Sched_Model Sched_Spec Threads_Model Threads_Proofs6 Kkrt_Model Phases_Model Phases_Spec Phases_Proofs Phases_Proofs2 Phases_Proofs3 Phases_Proofs4.

(** C191: every schedule of a KKRT run in which both parties have the same parameters ends with all threads finished, and so does every schedule of the three PRTY
    protocols. *)
Theorem C191_kkrt P : kBinsS P = kBinsR P -> kMaskS P = kMaskR P -> kNS P = kNR P -> completes (kkrtScripts P).
Proof. exact (kkrt_completes P). Qed.
Theorem C191_output P : pBinsS P = pBinsR P -> pNS P = pNR P -> completes (outScripts P).
Proof. exact (out_completes P). Qed.
Theorem C191_best P : pBinsS P = pBinsR P -> completes (bestScripts P).
Proof. exact (best_completes P). Qed.
Theorem C191_big P : pNS P = pNR P -> completes (bigScripts P).
Proof. exact (big_completes P). Qed.
(** A sender thread with more steps of bins than the receiver thread on the same channel waits for ever: no execution finishes. *)
Theorem C191_more_bins P t : (t < pT P)%nat -> (length (pPolys P (pBinsR P) t) < length (pPolys P (pBinsS P) t))%nat -> neverEnds (outScripts P) /\ neverEnds (bestScripts P).
Proof. intros Ht Hl. exact (conj (out_hangs P t Ht Hl) (best_hangs P t Ht Hl)). Qed.
Print Assumptions C191_kkrt.
Print Assumptions C191_output.
Print Assumptions C191_best.
Print Assumptions C191_big.
Print Assumptions C191_more_bins.
(** KKRT with 2500 bins and 1030 items; PRTY with 3 threads, 40 bins in steps of 8, 50 items in steps of 16. *)
Definition exKkrt : kkrtNet := mkKkrtNet [(true, 32); (false, 48)] [(false, 64); (true, 8)] 2500 2500 9 9 1030 1030.
Definition exPrty (T : nat) (binsS : N) : prtyNet :=
  mkPrtyNet T 8 16 binsS 40 50 50 (fun k => k * 300) (fun k => k * 9) (fun h => 500 + N.of_nat h) [800; 800; 350] (fun t i => 100 + 10 * N.of_nat t + i).
Example C191_example : kCorrS exKkrt = [1024; 1024; 452] /\ kMasksR exKkrt = [27648; 162] /\ pPolys (exPrty 3 40) 40 1 = [2400; 1500] /\ pMasks (exPrty 3 40) 50 2 = [144; 144; 9; 9] /\
  pBig (exPrty 3 40) 50 2 = [153] /\
  option_map (@length _) (wholeRun (kkrtScripts exKkrt)) = Some 33%nat /\
  option_map (@length _) (wholeRun (outScripts (exPrty 3 40))) = Some 64%nat /\
  option_map (@length _) (wholeRun (bestScripts (exPrty 3 40))) = Some 44%nat /\ option_map (@length _) (wholeRun (bestScripts (exPrty 1 40))) = Some 30%nat /\
  option_map (@length _) (wholeRun (bigScripts (exPrty 3 40))) = Some 62%nat /\
  length (pPolys (exPrty 3 400) 400 1) = 17%nat /\ wholeRun (outScripts (exPrty 3 400)) = None /\ wholeRun (bestScripts (exPrty 3 400)) = None.
Proof. vm_compute. done. Qed.

(** C192: in every schedule, whatever the receiver does, the KKRT sender has received all corrections before its first mask leaves. *)
Theorem C192_kkrt P adv : peer true adv -> always_before (kMain P :: kThread P :: adv) (fun e => e.1 = 1%nat /\ receives e.2) (fun e => e.1 = 0%nat /\ isMask e.2).
Proof. exact (kkrt_order P adv). Qed.
(** In every schedule, whatever the other party does, everything that the threads of a phase do on channels comes before everything that the threads of a later phase do. *)
Theorem C192_phases p n ws adv k k' : peer p adv -> (k < k')%nat -> always_before (party p n ws ++ adv) (inPhase ws k) (inPhase ws k').
Proof. exact (phases_order p n ws adv k k'). Qed.
Print Assumptions C192_kkrt.
Print Assumptions C192_phases.
(** The sender of [output] with two threads and a receiver that sends its polynomials in one thread: the events on channels of the sender's threads, 1-2 and 3-4. *)
Definition exPeer : list (list ev) := [sends (Chan 0 false) (pPolys (exPrty 2 40) 40 0) ++ sends (Chan 1 false) (pPolys (exPrty 2 40) 40 1)].
Example C192_example : peer true exPeer /\ inPhase (outS (exPrty 2 40)) 0 (2%nat, Get (Chan 1 false) 0 2400) /\ inPhase (outS (exPrty 2 40)) 1 (3%nat, Snd (Chan 0 true) 144) /\
  option_map (fun tr => map fst (List.filter (fun e : nat * ev => match e with (_, Snd (Chan _ true) _) | (_, Get _ _ _) => true | _ => false end) tr)) (wholeRun (party true 2 (outS (exPrty 2 40)) ++ exPeer)) =
    Some [1; 1; 1; 2; 2; 2; 3; 3; 3; 3; 4; 4; 4; 4]%nat /\
  option_map (List.filter (fun e : nat * ev => match e with (O, Act _) | (1%nat, Get _ _ _) => true | _ => false end)) (wholeRun (kkrtScripts exKkrt)) =
    Some [(1%nat, Get (Chan 0 false) 3 1024); (1%nat, Get (Chan 0 false) 4 1024); (1%nat, Get (Chan 0 false) 5 452); (0%nat, Act MasksSent)].
Proof.
  split; [repeat constructor; intros b k; vm_compute; set_solver|]. split; [eexists 1%nat, _; split_and!; [done|by vm_compute|done|right; by do 4 eexists]|].
  split; [eexists 2%nat, _; split_and!; [done|by vm_compute|done|left; by do 3 eexists]|]. vm_compute. done.
Qed.
