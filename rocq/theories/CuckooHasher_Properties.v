(** Property theorems about [CuckooHasher] and [SimpleCuckoo] (C108-C116). *)
From stdpp Require Import sets.
From Verif Require Import Base CuckooHasher_Model CuckooHasher_Spec CuckooHasher_Proofs5.

(** A table for six items with two hash functions, three bins and one stash slot, and four
    insertions of which the last one ends in the stash. *)
Definition exTable : Hasher := initWith 6 2 3 1 constructed.
Definition exOps : list op :=
  [OInsert 4 [6; 7]; OBatch 5 [(0, [9; 1]); (2, [3; 5])]; OInsert 1 [12; 13]].
Definition exTable4 : Hasher :=
  match runOps exTable exOps with Done c => c | _ => constructed end.

Example exOps_legal : legalSize 6 2 3 /\ legalOps 6 2 exOps.
Proof.
  split; [unfold legalSize; vm_compute; done|]. split.
  - split; [apply (bool_decide_unpack _); vm_compute; done|].
    repeat constructor.
  - repeat constructor.
Qed.
Example exOps_run : runOps exTable exOps = Done exTable4.
Proof. vm_compute. reflexivity. Qed.
Example exOps_stored : length (storedIn exTable4) = 4%nat /\ length (omap slotOf (hStash exTable4)) = 1%nat.
Proof. vm_compute. done. Qed.

(** *** C108: nothing is lost or duplicated *)
Theorem C108_retained n num bins stash os c : legalSize n num bins -> legalOps n num os ->
  runOps (initWith n num bins stash constructed) os = Done c ->
  Permutation (storedIn c) (opsItems os).*1 /\ Forall (fun x => placed c x.1 x.2) (opsItems os).
Proof. exact (hasher_retained n num bins stash os c). Qed.
Print Assumptions C108_retained.

Example C108_example : Permutation (storedIn exTable4) [4; 0; 2; 1] /\ placed exTable4 1 [12; 13].
Proof.
  destruct exOps_legal as [S L].
  destruct (C108_retained 6 2 3 1 exOps exTable4 S L exOps_run) as [P F].
  split; [exact P|]. rewrite Forall_forall in F. apply (F (1, [12; 13])).
  unfold opsItems. simpl. do 3 right. by left.
Qed.

(** *** C109: overflow *)

(** Too many items with the same hash values, inserted one by one: undefined behaviour for
    every table. *)
Theorem C109_insert_ub n num bins stash items row : legalSize n num bins -> legalItems n num items ->
  Forall (fun x => x.2 = row) items -> num + stash < N.of_nat (length items) ->
  runOps (initWith n num bins stash constructed) (map (fun x => OInsert x.1 x.2) items) = UB.
Proof. exact (hasher_overflow_ub n num bins stash items row). Qed.
Print Assumptions C109_insert_ub.

(** The full claim (an insertion that cannot be completed throws) is false: *)
Theorem C109_overflow_refuted : exists n num bins stash os,
  legalSize n num bins /\ legalOps n num os /\
  runOps (initWith n num bins stash constructed) os = UB.
Proof.
  exists 6, 2, 3, 1, (exOps ++ [OInsert 3 [0; 1]]). split; [apply exOps_legal|]. split; [|vm_compute; reflexivity].
  split; [split; [apply (bool_decide_unpack _); vm_compute; done|repeat constructor]|repeat constructor].
Qed.
Print Assumptions C109_overflow_refuted.

(** What holds: only a full stash makes [insert] fail; *)
Theorem C109_insert_partial n num bins stash os c i row : legalSize n num bins ->
  legalOps n num (os ++ [OInsert i row]) ->
  runOps (initWith n num bins stash constructed) os = Done c ->
  (exists c', insert c i row = Done c') \/ (insert c i row = UB /\ (2 ^ 64 - 1) ∉ hStash c).
Proof. exact (hasher_insert n num bins stash os c i row). Qed.
Print Assumptions C109_insert_partial.

(** [insertBatch] is always defined; if it throws, the stash is full and at most as many indices are missing as the
    batch has. *)
Theorem C109_batch_partial n num bins stash os c ws its : legalSize n num bins ->
  legalOps n num (os ++ [OBatch ws its]) ->
  runOps (initWith n num bins stash constructed) os = Done c ->
  exists c', (runOp c (OBatch ws its) = Done c' \/
    runOp c (OBatch ws its) = Thrown c' /\ (2 ^ 64 - 1) ∉ hStash c' /\
      exists lost, lost ≠ [] /\ (length lost <= length its)%nat /\
        Permutation (storedIn c' ++ lost) (opsItems os ++ its).*1).
Proof. exact (hasher_batch n num bins stash os c ws its). Qed.
Print Assumptions C109_batch_partial.

(** A workspace with fewer entries than the batch has items is not rejected: undefined behaviour for every table. *)
Theorem C109_workspace_ub c ws its : (ws < length its)%nat -> runOp c (OBatch ws its) = UB.
Proof. intros H. cbn [runOp]. unfold insertBatch. rewrite fmap_length, (proj2 (Nat.ltb_lt _ _) H). done. Qed.
Print Assumptions C109_workspace_ub.
Example C109_workspace_example : (1 < length [(0%N, [9%N; 1%N]); (2%N, [3%N; 5%N])])%nat /\
  runOp (initWith 6 2 3 1 constructed) (OBatch 1 [(0, [9; 1]); (2, [3; 5])]) = UB /\
  exists c, runOp (initWith 6 2 3 1 constructed) (OBatch 2 [(0, [9; 1]); (2, [3; 5])]) = Done c.
Proof. split; [cbn; lia|]. split; [done|]. eexists. vm_compute. reflexivity. Qed.

(** Too many items with the same hash values in batches: an exception for every table. *)
Theorem C109_batch_throws n num bins stash bs row : legalSize n num bins ->
  legalItems n num (concat bs.*2) -> Forall (fun b => (length b.2 <= b.1)%nat) bs ->
  Forall (fun x => x.2 = row) (concat bs.*2) -> num + stash < N.of_nat (length (concat bs.*2)) ->
  exists c, runOps (initWith n num bins stash constructed) (map (fun b => OBatch b.1 b.2) bs) = Thrown c.
Proof. exact (hasher_overflow_throw n num bins stash bs row). Qed.
Print Assumptions C109_batch_throws.

(** The items that are missing after the exception may be items of earlier calls. *)
Theorem C109_earlier_refuted : exists n num bins stash os c ws its c' i,
  legalSize n num bins /\ legalOps n num (os ++ [OBatch ws its]) /\
  runOps (initWith n num bins stash constructed) os = Done c /\
  runOp c (OBatch ws its) = Thrown c' /\ i ∈ (opsItems os).*1 /\ i ∉ storedIn c'.
Proof.
  exists 6, 2, 3, 1, exOps, exTable4, 1%nat, [(3, [0; 1])].
  eexists. exists 0.
  split; [apply exOps_legal|]. split.
  { split; [split; [apply (bool_decide_unpack _); vm_compute; done|repeat constructor]|repeat constructor]. }
  split; [exact exOps_run|]. split; [vm_compute; reflexivity|].
  split; [apply (bool_decide_unpack _); vm_compute; done|].
  apply (bool_decide_unpack _). vm_compute. done.
Qed.
Print Assumptions C109_earlier_refuted.

Example C109_example : runOps (initWith 4 2 5 1 constructed)
    (map (fun x => OInsert x.1 x.2) [(0, [8; 9]); (1, [8; 9]); (2, [8; 9]); (3, [8; 9])]) = UB /\
  exists c, runOps (initWith 4 2 5 1 constructed)
    (map (fun b => OBatch b.1 b.2) [(3%nat, [(0, [8; 9]); (1, [8; 9]); (2, [8; 9])]); (1%nat, [(3, [8; 9])])]) = Thrown c.
Proof.
  assert (legalSize 4 2 5) as S by (unfold legalSize; vm_compute; done).
  split.
  - apply (C109_insert_ub 4 2 5 1 _ [8; 9] S); [|repeat constructor|vm_compute; done].
    split; [apply (bool_decide_unpack _); vm_compute; done|repeat constructor].
  - apply (C109_batch_throws 4 2 5 1 _ [8; 9] S); [|repeat constructor|repeat constructor|vm_compute; done].
    split; [apply (bool_decide_unpack _); vm_compute; done|repeat constructor].
Qed.
Example C109_insert_example :
  (exists c', insert exTable 4 [6; 7] = Done c') \/ (insert exTable 4 [6; 7] = UB /\ (2 ^ 64 - 1) ∉ hStash exTable).
Proof.
  apply (C109_insert_partial 6 2 3 1 [] exTable 4 [6; 7]); [apply exOps_legal| |done].
  split; [split; [apply (bool_decide_unpack _); vm_compute; done|repeat constructor]|repeat constructor].
Qed.
Example C109_batch_example : exists c', runOp exTable4 (OBatch 1 [(3, [0; 1])]) = Thrown c' /\
  length (storedIn c') = 4%nat.
Proof. eexists. split; [vm_compute; reflexivity|]. vm_compute. done. Qed.

(** *** C110: lookup *)
Theorem C110_find n num bins stash os c q : legalSize n num bins -> legalOps n num os ->
  runOps (initWith n num bins stash constructed) os = Done c -> N.of_nat (length q) = num ->
  exists r, find c q = Done r /\ answers (opsItems os) q r.
Proof. exact (hasher_find n num bins stash os c q). Qed.
Print Assumptions C110_find.

Example C110_example : find exTable4 [9; 1] = Done 0 /\ find exTable4 [9; 2] = Done (2 ^ 64 - 1) /\
  exists r, find exTable4 [12; 13] = Done r /\ answers (opsItems exOps) [12; 13] r.
Proof.
  split; [vm_compute; done|]. split; [vm_compute; done|].
  apply (C110_find 6 2 3 1 exOps exTable4); [apply exOps_legal|apply exOps_legal|exact exOps_run|done].
Qed.

(** *** C111: batch lookup *)

(** Two items with the same hash values: the two lookups return different items. *)
Theorem C111_batch_refuted : exists n bins stash os c q r r',
  legalSize n 2 bins /\ legalOps n 2 os /\
  runOps (initWith n 2 bins stash constructed) os = Done c /\
  find c [q.1; q.2] = Done r /\ findBatch c 1 1 [q] = Done [r'] /\ r ≠ r'.
Proof.
  exists 2, 4, 1, [OInsert 0 [6; 7]; OInsert 1 [6; 7]].
  eexists. exists (6, 7), 1, 0. split; [unfold legalSize; vm_compute; done|]. split.
  { split; [split; [apply (bool_decide_unpack _); vm_compute; done|repeat constructor]|repeat constructor]. }
  split; [vm_compute; reflexivity|]. split; [vm_compute; done|]. split; [vm_compute; done|done].
Qed.
Print Assumptions C111_batch_refuted.

(** What holds: every answer of the batch lookup is right, *)
Theorem C111_answers n bins stash os c ws cap qs : legalSize n 2 bins -> legalOps n 2 os ->
  runOps (initWith n 2 bins stash constructed) os = Done c -> (length qs <= ws)%nat -> (length qs <= cap)%nat ->
  exists out, findBatch c ws cap qs = Done out /\ length out = length qs /\
    forall k q0 q1 r, qs !! k = Some (q0, q1) -> out !! k = Some r -> answers (opsItems os) [q0; q1] r.
Proof. exact (hasher_findBatch n bins stash os c ws cap qs). Qed.
Print Assumptions C111_answers.

(** and equal to the one of the single lookup if the rows of the items are distinct. *)
Theorem C111_batch_partial n bins stash os c ws cap qs : legalSize n 2 bins -> legalOps n 2 os ->
  NoDup (opsItems os).*2 ->
  runOps (initWith n 2 bins stash constructed) os = Done c -> (length qs <= ws)%nat -> (length qs <= cap)%nat ->
  exists out, findBatch c ws cap qs = Done out /\
    map Done out = map (fun q => find c [q.1; q.2]) qs.
Proof. exact (hasher_findBatch_find n bins stash os c ws cap qs). Qed.
Print Assumptions C111_batch_partial.

Example C111_example : findBatch exTable4 3 3 [(9, 1); (9, 2); (12, 13)] = Done [0; 2 ^ 64 - 1; 1] /\
  exists out, findBatch exTable4 3 3 [(9, 1); (9, 2); (12, 13)] = Done out /\
    map Done out = map (fun q => find exTable4 [q.1; q.2]) [(9, 1); (9, 2); (12, 13)].
Proof.
  split; [vm_compute; done|].
  apply (C111_batch_partial 6 3 1 exOps exTable4);
    [apply exOps_legal|apply exOps_legal| |exact exOps_run|simpl; lia|simpl; lia].
  apply (bool_decide_unpack _). vm_compute. done.
Qed.

(** *** C112: one by one or in batches of one *)
Theorem C112_same_refuted : exists n bins stash os c i row c1 c2,
  legalSize n 2 bins /\ legalOps n 2 (os ++ [OInsert i row]) /\
  runOps (initWith n 2 bins stash constructed) os = Done c /\
  insert c i row = Done c1 /\ runOp c (OBatch 1 [(i, row)]) = Done c2 /\ tableEq c1 c2 = Some false.
Proof.
  exists 3, 2, 1, [OInsert 0 [0; 1]; OInsert 1 [0; 1]].
  eexists. exists 2, [0; 1]. do 2 eexists. split; [unfold legalSize; vm_compute; done|]. split.
  { split; [split; [apply (bool_decide_unpack _); vm_compute; done|repeat constructor]|repeat constructor]. }
  split; [vm_compute; reflexivity|]. split; [vm_compute; reflexivity|]. split; [vm_compute; reflexivity|].
  vm_compute. done.
Qed.
Print Assumptions C112_same_refuted.

(** The limits differ by one: after a chain of 100 evictions [insert] finds the last bin empty, [insertBatch] has given up and used the stash. *)
Definition exChain : list op := map (fun i => OInsert (N.of_nat i) [N.of_nat i; N.of_nat i + 1]) (seq 0 100).
Theorem C112_limit_refuted : exists n bins stash os c i row c1 c2,
  legalSize n 2 bins /\ legalOps n 2 (os ++ [OInsert i row]) /\
  runOps (initWith n 2 bins stash constructed) os = Done c /\
  insert c i row = Done c1 /\ runOp c (OBatch 1 [(i, row)]) = Done c2 /\ hStash c1 = hStash c /\ hStash c2 <> hStash c.
Proof.
  exists 101, 102, 1, exChain. eexists. exists 100, [0; 101]. do 2 eexists. split; [unfold legalSize; vm_compute; done|]. split.
  { split; [split; [apply (bool_decide_unpack _); vm_compute; done|repeat constructor]|repeat constructor]. }
  split; [vm_compute; reflexivity|]. split; [vm_compute; reflexivity|]. split; [vm_compute; reflexivity|]. split; [vm_compute; done|vm_compute; done].
Qed.
Print Assumptions C112_limit_refuted.

(** What holds: the same table as long as the stash is not used. *)
Theorem C112_same_partial n num bins stash os c i row ws c' : legalSize n num bins ->
  legalOps n num (os ++ [OInsert i row]) -> (1 <= ws)%nat ->
  runOps (initWith n num bins stash constructed) os = Done c ->
  runOp c (OBatch ws [(i, row)]) = Done c' -> hStash c' = hStash c ->
  insert c i row = Done c'.
Proof. exact (hasher_one n num bins stash os c i row ws c'). Qed.
Print Assumptions C112_same_partial.

Example C112_example : exists c c', runOps exTable [OInsert 4 [6; 7]] = Done c /\
  runOp c (OBatch 1 [(0, [9; 1])]) = Done c' /\ storedIn c' = [0; 4] /\ insert c 0 [9; 1] = Done c'.
Proof.
  do 2 eexists. split; [vm_compute; reflexivity|]. split; [vm_compute; reflexivity|].
  split; [vm_compute; reflexivity|].
  apply (C112_same_partial 6 2 3 1 [OInsert 4 [6; 7]] _ 0 [9; 1] 1); [apply exOps_legal| |done| | |];
    [|vm_compute; reflexivity|vm_compute; reflexivity|vm_compute; reflexivity].
  split; [split; [apply (bool_decide_unpack _); vm_compute; done|repeat constructor]|repeat constructor].
Qed.

(** *** C113: an index cannot be inserted twice *)
Theorem C113_twice_refuted : exists n bins stash i row row2 c c',
  legalSize n 2 bins /\ legalOps n 2 [OInsert i row] /\
  runOps (initWith n 2 bins stash constructed) [OInsert i row] = Done c /\
  insert c i row2 = Done c' /\ storedIn c' = [i; i].
Proof.
  exists 3, 4, 1, 1, [2 ^ 64 - 1; 0], [2; 3]. do 2 eexists. split; [unfold legalSize; vm_compute; done|]. split.
  { split; [split; [apply (bool_decide_unpack _); vm_compute; done|repeat constructor]|repeat constructor]. }
  split; [vm_compute; reflexivity|]. split; vm_compute; reflexivity.
Qed.
Print Assumptions C113_twice_refuted.

(** [insertBatch] (release build) does not look for earlier insertions at all; the item is then not found under its
    first hash values. *)
Theorem C113_batch_refuted : exists n bins stash i row row2 c c',
  legalSize n 2 bins /\ legalOps n 2 [OInsert i row] /\
  runOps (initWith n 2 bins stash constructed) [OInsert i row] = Done c /\
  runOp c (OBatch 1 [(i, row2)]) = Done c' /\ storedIn c' = [i; i] /\ find c' row = Done (2 ^ 64 - 1).
Proof.
  exists 3, 4, 1, 1, [0; 1], [2; 3]. do 2 eexists. split; [unfold legalSize; vm_compute; done|]. split.
  { split; [split; [apply (bool_decide_unpack _); vm_compute; done|repeat constructor]|repeat constructor]. }
  split; [vm_compute; reflexivity|]. split; [vm_compute; reflexivity|]. split; vm_compute; reflexivity.
Qed.
Print Assumptions C113_batch_refuted.

(** What holds: [insert] rejects an index whose first hash value is not 2^64-1. *)
Theorem C113_twice_partial n num bins stash os c i row row2 h0 : legalSize n num bins -> legalOps n num os ->
  runOps (initWith n num bins stash constructed) os = Done c -> (i, row) ∈ opsItems os ->
  row !! 0%nat = Some h0 -> h0 ≠ 2 ^ 64 - 1 ->
  insert c i row2 = Thrown c.
Proof. exact (hasher_twice n num bins stash os c i row row2 h0). Qed.
Print Assumptions C113_twice_partial.

Example C113_example : insert exTable4 2 [100; 200] = Thrown exTable4.
Proof.
  apply (C113_twice_partial 6 2 3 1 exOps exTable4 2 [3; 5] [100; 200] 3);
    [apply exOps_legal|apply exOps_legal|exact exOps_run| |done|done].
  unfold opsItems. simpl. do 2 right. by left.
Qed.

(** *** C114: initialising again empties the table *)
Theorem C114_reinit_refuted : exists n bins stash os c,
  legalSize n 2 bins /\ legalOps n 2 os /\
  runOps (initWith n 2 bins stash constructed) os = Done c /\
  storedIn (initWith n 2 bins stash c) ≠ [] /\
  exists q, find (initWith n 2 bins stash c) q ≠ Done (2 ^ 64 - 1).
Proof.
  exists 6, 3, 1, exOps, exTable4. split; [apply exOps_legal|]. split; [apply exOps_legal|].
  split; [exact exOps_run|]. split; [vm_compute; done|]. exists [9; 1]. vm_compute. done.
Qed.
Print Assumptions C114_reinit_refuted.

(** What holds: a table that was only constructed is empty after [init] and every lookup fails. *)
Theorem C114_init_partial n num bins stash q : legalSize n num bins -> N.of_nat (length q) = num ->
  storedIn (initWith n num bins stash constructed) = [] /\
  find (initWith n num bins stash constructed) q = Done (2 ^ 64 - 1).
Proof. exact (hasher_init n num bins stash q). Qed.
Print Assumptions C114_init_partial.

Example C114_example : find (initWith 6 3 4 1 constructed) [1; 2; 3] = Done (2 ^ 64 - 1).
Proof. apply (C114_init_partial 6 3 4 1 [1; 2; 3]); [unfold legalSize; vm_compute; done|done]. Qed.

(** *** C115: the choice of the parameters *)
Theorem C115_params (table : N -> HParams) n statSec c :
  match init table n statSec c with
  | Done c' => statSec = 40 /\ exists k, k ∈ [7; 8; 12; 16; 20; 24; 28; 30; 32] /\ n <= 2 ^ k /\
      (forall k', k' ∈ [7; 8; 12; 16; 20; 24; 28; 30; 32] -> k' < k -> 2 ^ k' < n) /\
      hNum c' = qNum (table k) /\ N.of_nat (length (hBins c')) = qBins (table k) /\
      N.of_nat (length (hStash c')) = qStash (table k) /\ N.of_nat (length (hRows c')) = n * qNum (table k)
  | Thrown c' => c' = c /\ (statSec ≠ 40 \/ 2 ^ 32 < n)
  | _ => False
  end.
Proof. exact (hasher_params table n statSec c). Qed.
Print Assumptions C115_params.

Example C115_example : exists c', init (fun _ => mkHParams 8 20 2) 5 40 constructed = Done c' /\
  length (hRows c') = 10%nat /\ length (hBins c') = 20%nat /\
  init (fun _ => mkHParams 8 20 2) 5 41 constructed = Thrown constructed.
Proof. eexists. split; [vm_compute; reflexivity|]. vm_compute. done. Qed.

(** *** C116: [SimpleCuckoo] *)
Theorem C116_simple n num bins bs : legalSize n num bins -> legalItems n num (concat bs.*2) ->
  Forall (fun b => (length b.2 <= b.1)%nat) bs ->
  exists c, simpleRun (simpleInit n num bins constructed) bs = Done c /\
    Permutation (storedIn c) (concat bs.*2).*1 /\
    Forall (fun x => placed c x.1 x.2) (concat bs.*2) /\
    forall qs, Forall (fun q => N.of_nat (length q) = num) qs ->
      exists out, simpleFindBatch c qs = Done out /\ Forall2 (answers (concat bs.*2)) qs out.
Proof. exact (simple_retained n num bins bs). Qed.
Print Assumptions C116_simple.

Definition exSimple : list (nat * list (N * list N)) :=
  [(2%nat, [(0, [8; 9; 8]); (1, [8; 9; 8])]); (2%nat, [(2, [8; 9; 8]); (3, [8; 9; 1])])].
Example C116_example : exists c, simpleRun (simpleInit 4 3 4 constructed) exSimple = Done c /\
  length (hStash c) = 2%nat /\ simpleFindBatch c [[8; 9; 1]; [8; 9; 2]] = Done [3; 2 ^ 64 - 1].
Proof. eexists. split; [vm_compute; reflexivity|]. vm_compute. done. Qed.
Example C116_legal : legalSize 4 3 4 /\ legalItems 4 3 (concat exSimple.*2) /\
  Forall (fun b => (length b.2 <= b.1)%nat) exSimple.
Proof.
  split; [unfold legalSize; vm_compute; done|]. split; [|repeat constructor].
  split; [apply (bool_decide_unpack _); vm_compute; done|repeat constructor].
Qed.
