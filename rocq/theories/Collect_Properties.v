(** Results found by several threads: property theorems. *)
From Verif Require Import Base Partition_Model Prty_Model Collect_Model Collect_Proofs.

(** PRTY with masks of fewer than eight bytes and several threads: the vector is changed without the lock. *)
Theorem C188_prty_refuted : exists ord step hb T n2 es gh scripts l sched,
  (1 < step)%nat /\ matchAll ord step hb T n2 es gh = Done l /\ l = [0; 1]%nat /\ prtyCollect ord step hb T n2 es gh = Some scripts /\ cRun sched (cStart [] scripts) = UB.
Proof.
  exists (fun _ l => l), 4%nat, 6%nat, 2%nat, 2%nat, [(0, (5, 0%nat)); (1, (7, 1%nat))], (fun h => if h =? 0 then [5; 9] else [8; 7]).
  do 2 eexists. exists [0; 1]%nat. split; [lia|]. split; [vm_compute; reflexivity|]. split; [reflexivity|]. split; [vm_compute; reflexivity|]. vm_compute. reflexivity.
Qed.
(** Whenever two threads find something, there is such a schedule. *)
Theorem C188_prty_race hb T ls v t t' x l x' l' : (hb < 8)%nat -> t <> t' -> ls !! t = Some (x :: l) -> ls !! t' = Some (x' :: l') ->
  cRun [t; t'] (cStart v (map (prtyPushes hb T) ls)) = UB.
Proof. exact (prty_race hb T ls v t t' x l x' l'). Qed.
(** With longer masks or one thread, every schedule ends with the matches of all threads in the vector. *)
Theorem C188_prty_partial ord step hb T n2 es gh scripts l v sched : prtyCollect ord step hb T n2 es gh = Some scripts -> matchAll ord step hb T n2 es gh = Done l ->
  (8 <= hb)%nat \/ (T <= 1)%nat -> exists s, cRun sched (cStart v scripts) = Done s /\ (cDone s -> cVec s ≡ₚ v ++ l).
Proof. exact (prty_collect ord step hb T n2 es gh scripts l v sched). Qed.
(** [outputBestComm] and [outputBigPoly]. *)
Theorem C188_prty_others v T ls sched : length ls = T -> exists s, cRun sched (cStart v (map (prtyPushes2 T) ls)) = Done s /\ (cDone s -> cVec s ≡ₚ v ++ concat ls).
Proof. exact (fun H => collect_pushes _ true v T ls sched (fun l => eq_refl) H (or_introl eq_refl)). Qed.
(** RR17a, RR17b and GRR18; RR16. No schedule is stuck before the end. *)
Theorem C188_merge_once v ls sched : exists s, cRun sched (cStart v (map mergeOnce ls)) = Done s /\ (cDone s -> cVec s ≡ₚ v ++ concat ls) /\
  (~ cDone s -> exists t s', cStep s t = Done s' /\ (length (concat (cTodo s')) < length (concat (cTodo s)))%nat).
Proof. exact (merge_once v ls sched). Qed.
Theorem C188_merge_always v ls sched : exists s, cRun sched (cStart v (map mergeAlways ls)) = Done s /\ (cDone s -> cVec s ≡ₚ v ++ concat ls) /\
  (~ cDone s -> exists t s', cStep s t = Done s' /\ (length (concat (cTodo s')) < length (concat (cTodo s)))%nat).
Proof. exact (merge_always v ls sched). Qed.
(** ECDH and DKT: the vector is the same under every schedule. *)
Theorem C188_first_merge v ls sched : (1 <= length ls)%nat -> exists s, cRun sched (cStart v (firstPushes ls)) = Done s /\ (cDone s -> firstMerge ls s = v ++ concat ls).
Proof. exact (first_merge v ls sched). Qed.
Print Assumptions C188_prty_refuted.
Print Assumptions C188_prty_race.
Print Assumptions C188_prty_partial.
Print Assumptions C188_prty_others.
Print Assumptions C188_merge_once.
Print Assumptions C188_merge_always.
Print Assumptions C188_first_merge.

(** Two threads, masks of eight bytes; the second thread is first. *)
Definition exGh (h : N) : list N := if h =? 0 then [5; 9] else [8; 7].
Definition exEs : list entry := [(0, (5, 0%nat)); (1, (7, 1%nat))].
Definition exScripts : list (list op) := default [] (prtyCollect (fun _ l => l) 4 8 2 2 exEs exGh).
Example C188_example_prty : prtyCollect (fun _ l => l) 4 8 2 2 exEs exGh = Some exScripts /\ matchAll (fun _ l => l) 4 8 2 2 exEs exGh = Done [0; 1]%nat /\
  cRun [1; 0; 0; 1; 1; 1; 0; 0; 0; 0]%nat (cStart [] exScripts) = Done (mkC [1; 0]%nat None None [[]; []]).
Proof. vm_compute. done. Qed.
Example C188_example_merge : cRun [2; 0; 2; 2; 0; 2; 0; 0; 0; 0]%nat (cStart [] (map mergeOnce [[4; 1]; []; [3]]%nat)) = Done (mkC [3; 4; 1]%nat None None [[]; []; []]) /\
  cRun [2; 0; 2; 2; 0; 2; 0; 0; 0; 0; 1; 1; 1; 1]%nat (cStart [] (map mergeAlways [[4; 1]; []; [3]]%nat)) = Done (mkC [3; 4; 1]%nat None None [[]; []; []]) /\
  cRun [0; 1; 0; 0; 0]%nat (cStart [] (firstPushes [[4; 1]; [2]]%nat)) = Done (mkC [4; 1]%nat None None [[]; []]).
Proof. vm_compute. done. Qed.
