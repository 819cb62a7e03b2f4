(** The traffic of a PIR-PSI run. *)
From Verif Require Import Base Drrn_Model Sched_Model Sched_Spec Threads_Model DrrnThreads_Model Init_Spec Volume_Spec Volume_Proofs.

Lemma vol_routine b p c h T t : vol b (zRoutine p c h T t) = 0.
Proof. unfold zRoutine. rewrite vol_app, vol_cons, vol_nil. cbn [evSize]. induction (zMine T t (dS p)) as [|x l IH]; [done|]. cbn [map]. rewrite vol_cons. cbn [evSize]. lia. Qed.
Lemma vol_keys b n k : vol b (concat (replicate n [Snd (Chan 0 false) k; Snd (Chan 1 false) k])) = if b then 0 else 2 * N.of_nat n * k.
Proof. induction n as [|n IH]; [by destruct b|]. cbn [replicate concat]. rewrite vol_app, IH, !vol_cons, vol_nil. cbn [evSize]. destruct b; cbn [Bool.eqb]; lia. Qed.
Lemma drrn_traffic P p0 p1 pc : (1 <= zT0 P)%nat -> (1 <= zT1 P)%nat ->
  sendsInAll (drrnScripts P p0 p1 pc) (said true (zInit P) + said true (zOnline P) + 2 * zBlocks p1)
    (said false (zInit P) + said false (zOnline P) + 2 * N.of_nat (dS pc) * zKeys pc + zIndices pc + zBlocks pc).
Proof.
  intros H0 H1. apply vol_finished; unfold drrnScripts; rewrite !map_app, !total_app, !scripts_vol.
  - rewrite (perThread_first _ _ (said true (zInit P) + said true (zOnline P)) H0); [| |].
    + rewrite (perThread_first _ _ (2 * zBlocks p1) H1).
      * unfold zClient. cbn [map]. rewrite total_cons. unfold total at 1. cbn [foldr]. rewrite !vol_app, !vol_talk, vol_keys, !vol_cons, vol_nil. cbn [evSize Bool.eqb]. lia.
      * intros [|t] Ht; [lia|]. unfold zServer1. rewrite vol_cons, vol_app, vol_routine. done.
      * unfold zServer1. rewrite !vol_app, vol_routine, !vol_cons, vol_nil. cbn [evSize Bool.eqb]. lia.
    + intros [|t] Ht; [lia|]. unfold zServer0. rewrite vol_cons, vol_app, vol_routine. done.
    + unfold zServer0. cbv zeta. rewrite !vol_app, !vol_talk, vol_routine, !vol_cons, vol_nil. cbn [evSize Bool.eqb]. lia.
  - rewrite (perThread_first _ _ 0 H0); [| |].
    + rewrite (perThread_first _ _ 0 H1).
      * unfold zClient. cbn [map]. rewrite total_cons. unfold total at 1. cbn [foldr]. rewrite !vol_app, !vol_talk, vol_keys, !vol_cons, vol_nil. cbn [evSize Bool.eqb]. lia.
      * intros [|t] Ht; [lia|]. unfold zServer1. rewrite vol_cons, vol_app, vol_routine. done.
      * unfold zServer1. rewrite !vol_app, vol_routine, !vol_cons, vol_nil. cbn [evSize Bool.eqb]. lia.
    + intros [|t] Ht; [lia|]. unfold zServer0. rewrite vol_cons, vol_app, vol_routine. done.
    + unfold zServer0. cbv zeta. rewrite !vol_app, !vol_talk, vol_routine, !vol_cons, vol_nil. cbn [evSize Bool.eqb]. lia.
Qed.
