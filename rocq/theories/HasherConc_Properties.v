(** Property theorems about concurrent insertions in [CuckooHasher] (C117-C120). *)
From stdpp Require Import sets.
From Verif Require Import Base CuckooHasher_Model CuckooHasher_Spec HasherConc_Model HasherConc_Spec
  HasherConc_Proofs3.

(** Two threads on a table with two hash functions, five bins and one stash slot, one with a batch. *)
Definition exProgs : list (list op) :=
  [[OBatch 2 [(0, [6; 7]); (1, [9; 1])]]; [OInsert 2 [3; 6]; OInsert 3 [11; 13]]].
Definition exStart : config := start (initWith 6 2 5 1 constructed) exProgs.
(** Turn and turn about. *)
Definition exSched (k : nat) : list nat := concat (replicate k [0; 1; 1]%nat).

Example ex_legal : legalSize 6 2 5 /\ legalOps 6 2 (concat exProgs).
Proof.
  split; [unfold legalSize; vm_compute; done|]. split; [|repeat constructor].
  split; [apply (bool_decide_unpack _); vm_compute; done|repeat constructor].
Qed.
Example ex_returned : allReturned (runSched exStart (exSched 40)).
Proof. vm_compute. repeat (split || constructor). Qed.

(** *** C117: nothing is lost or duplicated, whatever the interleaving *)
Theorem C117_retained n num bins stash progs sched : legalSize n num bins -> legalOps n num (concat progs) ->
  allReturned (runSched (start (initWith n num bins stash constructed) progs) sched) ->
  let c := gTable (runSched (start (initWith n num bins stash constructed) progs) sched) in
  Permutation (storedIn c) (opsItems (concat progs)).*1 /\
  Forall (fun x => placed c x.1 x.2) (opsItems (concat progs)) /\
  forall q, N.of_nat (length q) = num -> exists r, find c q = Done r /\ answers (opsItems (concat progs)) q r.
Proof. exact (conc_retained n num bins stash progs sched). Qed.
Print Assumptions C117_retained.

Example C117_example : Permutation (storedIn (gTable (runSched exStart (exSched 40)))) [0; 1; 2; 3].
Proof.
  destruct ex_legal as [S L]. exact (proj1 (C117_retained 6 2 5 1 exProgs (exSched 40) S L ex_returned)).
Qed.

(** *** C118: every call ends *)
Theorem C118_progress n num bins stash progs sched k os : legalSize n num bins -> legalOps n num (concat progs) ->
  progs !! k = Some os -> opsTurns num stash os <= turnsOf k sched ->
  exists t, gThreads (runSched (start (initWith n num bins stash constructed) progs) sched) !! k = Some t /\ stopped t.
Proof. exact (conc_progress n num bins stash progs sched k os). Qed.
Print Assumptions C118_progress.

(** ... and, unless the stash is full, by returning. *)
Theorem C118_stops n num bins stash progs sched k t : legalSize n num bins -> legalOps n num (concat progs) ->
  gThreads (runSched (start (initWith n num bins stash constructed) progs) sched) !! k = Some t ->
  (exists l, tPc t = Failed l) \/ (exists l, tPc t = Stuck l) ->
  (2 ^ 64 - 1) ∉ hStash (gTable (runSched (start (initWith n num bins stash constructed) progs) sched)).
Proof. exact (conc_stops n num bins stash progs sched k t). Qed.
Print Assumptions C118_stops.

Example C118_example : opsTurns 2 1 [OInsert 2 [3; 6]; OInsert 3 [11; 13]] <= turnsOf 1 (exSched 500) /\
  exists t, gThreads (runSched exStart (exSched 500)) !! 1%nat = Some t /\ stopped t.
Proof.
  destruct ex_legal as [S L].
  assert (opsTurns 2 1 [OInsert 2 [3; 6]; OInsert 3 [11; 13]] <= turnsOf 1 (exSched 500)) as H by (vm_compute; done).
  split; [done|]. exact (C118_progress 6 2 5 1 exProgs (exSched 500) 1 _ S L eq_refl H).
Qed.
(** Two items for one bin and no stash: the second thread stops in the stash loop. *)
Example C118_stops_example :
  let g := runSched (start (initWith 6 1 1 0 constructed) [[OInsert 0 [6]]; [OInsert 2 [3]]])
             (replicate 10 0 ++ replicate 420 1)%nat in
  exists t l, gThreads g !! 1%nat = Some t /\ tPc t = Stuck l /\ l.*1 = [0].
Proof. vm_compute. do 2 eexists. done. Qed.

(** *** C119: data races *)
Theorem C119_race_refuted : exists n num bins stash progs sched, legalSize n num bins /\
  legalOps n num (concat progs) /\
  racy (accesses (start (initWith n num bins stash constructed) progs) sched).
Proof.
  exists 6, 2, 5, 1, exProgs, (exSched 20). split; [apply ex_legal|]. split; [apply ex_legal|].
  exists 1%nat, 0%nat, false, 7.
  split; [done|]. split; apply (bool_decide_unpack _); vm_compute; done.
Qed.
Print Assumptions C119_race_refuted.

(** What holds: no two threads write the same word of [mHashes]. *)
Theorem C119_writes_partial n num bins stash progs sched k1 k2 q : legalSize n num bins ->
  legalOps n num (concat progs) ->
  (k1, true, q) ∈ accesses (start (initWith n num bins stash constructed) progs) sched ->
  (k2, true, q) ∈ accesses (start (initWith n num bins stash constructed) progs) sched -> k1 = k2.
Proof. exact (conc_no_ww n num bins stash progs sched k1 k2 q). Qed.
Print Assumptions C119_writes_partial.

Example C119_example : (0%nat, true, 1) ∈ accesses exStart (exSched 20) /\ (1%nat, true, 1) ∉ accesses exStart (exSched 20).
Proof.
  destruct ex_legal as [S L].
  assert ((0%nat, true, 1) ∈ accesses exStart (exSched 20)) as H by (apply (bool_decide_unpack _); vm_compute; done).
  split; [done|]. intros H1. by pose proof (C119_writes_partial 6 2 5 1 exProgs (exSched 20) 0 1 1 S L H H1).
Qed.

(** *** C120: lookups during insertions *)
Theorem C120_find_refuted : exists n bins stash progs sched t i row, legalSize n 2 bins /\
  legalOps n 2 (concat progs) /\
  let g := runSched (start (initWith n 2 bins stash constructed) progs) sched in
  gThreads g !! 0%nat = Some t /\ returned t /\ progs !! 0%nat = Some [OInsert i row] /\
  find (gTable g) row = Done (2 ^ 64 - 1).
Proof.
  exists 6, 3, 1, [[OInsert 0 [6; 7]]; [OInsert 1 [9; 2]]], (replicate 10 0 ++ replicate 8 1)%nat.
  eexists. exists 0, [6; 7]. split; [unfold legalSize; vm_compute; done|]. split.
  { split; [|repeat constructor]. split; [apply (bool_decide_unpack _); vm_compute; done|repeat constructor]. }
  split; [vm_compute; reflexivity|]. split; [vm_compute; done|]. split; [done|]. vm_compute. done.
Qed.
Print Assumptions C120_find_refuted.

(** What holds: at any time the lookup is right about the items that are in the table. *)
Theorem C120_find_partial n num bins stash progs sched q : legalSize n num bins -> legalOps n num (concat progs) ->
  N.of_nat (length q) = num ->
  let c := gTable (runSched (start (initWith n num bins stash constructed) progs) sched) in
  exists items r, (forall x, x ∈ items -> x ∈ opsItems (concat progs)) /\
    Permutation (storedIn c) items.*1 /\ find c q = Done r /\ answers items q r.
Proof. exact (conc_find n num bins stash progs sched q). Qed.
Print Assumptions C120_find_partial.

Example C120_example : let c := gTable (runSched exStart (exSched 20)) in
  exists items r, (forall x, x ∈ items -> x ∈ opsItems (concat exProgs)) /\
    Permutation (storedIn c) items.*1 /\ find c [3; 6] = Done r /\ answers items [3; 6] r.
Proof. destruct ex_legal as [S L]. exact (C120_find_partial 6 2 5 1 exProgs (exSched 20) [3; 6] S L eq_refl). Qed.
