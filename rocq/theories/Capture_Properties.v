(** Threads and their seeds: property theorems. *)
From stdpp Require Import relations.
From Verif Require Import Base Capture_Model Capture_Spec Capture_Proofs.

(** Set-up of RR17a and RR17b (a vector of generators) and the online phases of RR17a, RR17b and GRR18 (seed captured by copy): in every execution each thread reads the seed drawn for it,
    and no execution gets stuck before all threads are joined. *)
Theorem C143_vector seeds : ownSeeds (vectorSeeds seeds) seeds /\ noStuck (vectorSeeds seeds).
Proof. split; [exact (vector_own seeds)|exact (vector_stuck seeds)]. Qed.
Theorem C143_copy seeds : ownSeeds (copySeeds seeds) seeds /\ noStuck (copySeeds seeds).
Proof. split; [exact (copy_own seeds)|exact (copy_stuck seeds)]. Qed.
Print Assumptions C143_vector.
Print Assumptions C143_copy.
(** Two threads, the second one reads first. *)
Example C143_example : rtc cstep (cinit (copySeeds [7; 8])) (mkC [Join 0; Join 1] (put 1 None (put 1 (Some 8) (put 0 None (put 0 (Some 7) (fun _ => None))))) [Copy 7; Has (Some 8)]).
Proof. unfold cinit, copySeeds. cbn. do 6 (eapply rtc_l; [by constructor|]). eapply rtc_l; [by apply (S_own 1%nat 8)|]. constructor. Qed.
Example C143_example_vector : rtc cstep (cinit (vectorSeeds [7])) (mkC [Join 0; End_ 0] (put 0 (Some 7) (put 0 (Some 0) (fun _ => None))) [Has (Some 7)]).
Proof. unfold cinit, vectorSeeds. cbn. do 3 (eapply rtc_l; [by constructor|]). eapply rtc_l; [by apply (S_ref 0%nat 0%nat)|]. constructor. Qed.

(** DCW: whenever there is a second channel, there is an execution in which all threads read a variable that has ended. *)
Theorem C143_dcw_refuted seeds : seeds <> [] -> mayRead (dcwSeeds seeds) (replicate (length seeds) None) /\ ~ ownSeeds (dcwSeeds seeds) seeds.
Proof.
  intros Hne. split; [exact (dcw_dangling seeds)|]. intros H. destruct (dcw_dangling seeds) as (m & Hm). destruct seeds as [|s rest]; [done|].
  destruct (H _ 0%nat None Hm eq_refl) as (v & ? & _). done.
Qed.
(** If the variables of all iterations are at the same place of the stack, all threads may use the last seed. *)
Theorem C143_dcw_shared_refuted : exists seeds s, NoDup seeds /\ (2 <= length seeds)%nat /\ mayRead (dcwStack seeds) (replicate (length seeds) (Some s)).
Proof. exists [7; 8; 9], 9. split; [by apply (bool_decide_unpack (NoDup [7; 8; 9])); vm_compute|]. split; [cbn; lia|]. by apply dcw_shared. Qed.
(** What holds: a thread that reads while the variable exists reads its own seed. *)
Theorem C143_dcw_partial seeds s t r : rtc cstep (cinit (dcwSeeds seeds)) s -> threads s !! t = Some (Has r) -> r = None \/ r = seeds !! t.
Proof. exact (dcw_own seeds s t r). Qed.
Print Assumptions C143_dcw_refuted.
Print Assumptions C143_dcw_shared_refuted.
Print Assumptions C143_dcw_partial.
Example C143_example_dcw : rtc cstep (cinit (dcwSeeds [7; 8])) (mkC [Join 0; Join 1] (put 1 None (put 1 (Some 8) (put 0 None (put 0 (Some 7) (fun _ => None))))) [Has (Some 7); Ref 1]).
Proof. unfold cinit, dcwSeeds. cbn. do 2 (eapply rtc_l; [by constructor|]). eapply rtc_l; [by apply (S_ref 0%nat 0%nat)|]. do 4 (eapply rtc_l; [by constructor|]). constructor. Qed.
