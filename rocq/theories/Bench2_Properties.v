(** Which passes the benchmark drivers go through (continues C195). *)
From Verif Require Import Base Sched_Model Bench_Model Bench2_Proofs.

(** * C195 *)
(** A driver goes through exactly the combinations of the values on the command line; DCW only through those with one thread; bin scalers and epsilons vary only where the protocol has them. *)
Theorem C195_passes b sender l p : p ∈ passes b sender l <->
  lTrials l <> 0%nat /\ pItems p ∈ lItems l /\ pThreads p ∈ lThreads l /\ (b = DcwR -> pThreads p = 1%nat) /\
  (match b with Rr17a | Rr17aSM | Rr17b | Grr18 => pScaler p ∈ lScalers l | _ => pScaler p = 0 end) /\
  (match b with Grr18 => pEps p ∈ lEps l | _ => pEps p = 0 end).
Proof. exact (elem_passes b sender l p). Qed.
Print Assumptions C195_passes.
(** DCW skips the passes with four threads. *)
Example C195_passes_example : passes DcwR true (mkLaunch [256; 1024]%nat [1; 4]%nat [4] [1] 1) = [mkPass 256 1 0 0; mkPass 1024 1 0 0].
Proof. reflexivity. Qed.

(** Each combination is run [mTrials] times. *)
Theorem C195_count b sender l : b <> DcwR ->
  length (passes b sender l) = (length (lItems l) * (length (lThreads l) *
    (match b with Rr17a | Rr17aSM | Rr17b | Grr18 => length (lScalers l) | _ => 1 end * (match b with Grr18 => length (lEps l) | _ => 1 end * lTrials l))))%nat.
Proof. exact (length_passes b sender l). Qed.
Print Assumptions C195_count.
Example C195_count_example : length (passes Grr18 false (mkLaunch [256; 1024]%nat [1; 4]%nat [2; 4] [1; 2; 3] 5)) = 120%nat.
Proof. reflexivity. Qed.
