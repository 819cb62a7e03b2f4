(** Scheduling of PIR-PSI (client and two servers): property theorems. *)
From stdpp Require Import sets.
From Verif Require Import Base Drrn_Model Sched_Model Sched_Spec Threads_Model Threads_Proofs6 DrrnThreads_Model DrrnThreads_Proofs DrrnThreads_Proofs2.

(** Every schedule of a run in which the three parties have the same parameters ends with all threads finished. *)
Theorem C186_drrn_completes P p d g : domainParams (dSlots p) (N.of_nat (dS p)) (N.of_nat (dB p)) = Done (d, g) -> (1 <= zT0 P)%nat -> (1 <= zT1 P)%nat -> completes (drrnScripts P p p p).
Proof. intros _. exact (drrn_completes P p). Qed.
Print Assumptions C186_drrn_completes.
(** A client that has fewer regions than server 1 leaves it waiting for keys: no execution finishes, whatever the parameters of server 0. *)
Theorem C186_fewer_regions P p0 p1 pc tr s : (1 <= zT1 P)%nat -> (dS pc < dS p1)%nat -> exec (start (drrnScripts P p0 p1 pc)) tr s -> ~ finished s.
Proof. exact (drrn_hangs P p0 p1 pc tr s). Qed.
Print Assumptions C186_fewer_regions.
(** Two and three threads, three regions; five messages in the two KKRT conversations. With two regions the client leaves the servers waiting. *)
Definition exNet : drrnNet := mkNet [(true, 32); (false, 48)] [(false, 64); (false, 8); (true, 16)] 2 3.
Definition exReg (s : nat) : dparams := mkDrrn 2 3 600 s 4 2.
Example C186_example : (exists d g, domainParams (dSlots (exReg 3)) (N.of_nat (dS (exReg 3))) (N.of_nat (dB (exReg 3))) = Done (d, g)) /\ zKeys (exReg 3) = 128 /\
  option_map (@length _) (wholeRun (drrnScripts exNet (exReg 3) (exReg 3) (exReg 3))) = Some 47%nat /\
  wholeRun (drrnScripts exNet (exReg 3) (exReg 3) (exReg 2)) = None.
Proof. split; [by do 2 eexists|]. vm_compute. done. Qed.

(** Whatever the other parties do, a server uses no share before all its threads have written theirs. *)
Theorem C187_server0_order P p adv : peer true adv -> always_before (map (zServer0 P p) (seq 0 (zT0 P)) ++ adv) (among (zT0 P) isHash) (among (zT0 P) isMask).
Proof. exact (server0_order P p adv). Qed.
Theorem C187_server1_order P p adv : peer false adv -> always_before (map (zServer1 P p) (seq 0 (zT1 P)) ++ adv) (among (zT1 P) isHash) (among (zT1 P) isMask).
Proof. exact (server1_order P p adv). Qed.
(** Each region is evaluated by exactly one thread, once. *)
Theorem C187_regions T n b : (1 <= T)%nat -> (b < n)%nat -> exists t, (t < T)%nat /\ b ∈ zMine T t n /\ forall t', (t' < T)%nat -> b ∈ zMine T t' n -> t' = t.
Proof. exact (regions_once T n b). Qed.
Theorem C187_regions_nodup T t n : (1 <= T)%nat -> NoDup (zMine T t n) /\ Forall (fun b => (b < n)%nat) (zMine T t n).
Proof. exact (regions_nodup T t n). Qed.
Print Assumptions C187_server0_order.
Print Assumptions C187_server1_order.
Print Assumptions C187_regions.
Print Assumptions C187_regions_nodup.
(** Server 1 with three threads, the client, and a server 0 that only sends its KKRT messages. *)
Definition exOthers : list (list ev) := [zClient exNet (exReg 3); [Snd (Chan 0 true) 32; Snd (Chan 0 true) 16]].
Example C187_example : zMine 3 1 8 = [1; 4; 7]%nat /\ zMine 3 2 8 = [2; 5]%nat /\ peer false exOthers /\ option_map (List.filter (fun e => match e with (_, Act _) => true | _ => false end)) (wholeRun (map (zServer1 exNet (exReg 3)) (seq 0 3) ++ exOthers)) =
  Some [(0%nat, Act Hashed); (1%nat, Act Hashed); (2%nat, Act Hashed); (0%nat, Act MasksSent)].
Proof. split_and!; [done|done|repeat constructor; intros b k; cbn; set_solver|vm_compute; done]. Qed.
