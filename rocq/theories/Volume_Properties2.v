(** C198 for PIR-PSI. *)
From Verif Require Import Base Drrn_Model Sched_Model Sched_Spec Threads_Proofs6 DrrnThreads_Model Volume_Spec Volume_Proofs4.
From Verif Require Import DrrnThreads_Properties Volume_Properties.

(** The servers: their part of the two KKRT conversations with the client and two times a block for each place of server 1. The client: its part of KKRT, the
    keys of each region for both servers, an index and a block for each place. *)
Theorem C198_drrn P p0 p1 pc : (1 <= zT0 P)%nat -> (1 <= zT1 P)%nat ->
  sendsInAll (drrnScripts P p0 p1 pc) (said true (zInit P) + said true (zOnline P) + 2 * zBlocks p1)
    (said false (zInit P) + said false (zOnline P) + 2 * N.of_nat (dS pc) * zKeys pc + zIndices pc + zBlocks pc).
Proof. exact (drrn_traffic P p0 p1 pc). Qed.
Print Assumptions C198_drrn.
(** Three regions with keys of 128 bytes, 24 places. *)
Example C198_example_drrn : permSize (exReg 3) = 24%nat /\ zKeys (exReg 3) = 128 /\
  option_map sentIn (wholeRun (drrnScripts exNet (exReg 3) (exReg 3) (exReg 3))) = Some (48 + 2 * (16 * 24), 48 + 72 + 2 * 3 * 128 + 4 * 24 + 16 * 24).
Proof. vm_compute. done. Qed.
