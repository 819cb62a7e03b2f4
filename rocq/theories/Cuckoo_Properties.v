(** Property theorems about the cuckoo index (C01-C06, C11). *)
From Coq Require Import QArith Qround.
From Verif Require Import Base CuckooIndex_Model CuckooIndex_Spec CuckooIndex_Proofs
  CuckooConc_Model CuckooConc_Proofs CuckooParams_Model CuckooParams_Proofs.

(** * C01: no item is lost, duplicated or invented *)

Theorem C01_cuckoo_no_loss p lim c0 batches c :
  legalParams p -> init p (constructed lim) = Done c0 -> legalItems p (concat batches) ->
  insertBatches c0 batches = Done c ->
  (forall i, times (storedIndices c) i = if decide (i ∈ (concat batches).*1) then 1%nat else 0%nat) /\
  (forall a w i j, cBins c !! a = Some w -> entryOf w = Some (i, j) ->
     exists h, (i, h) ∈ concat batches /\ j < pNumHashes p /\ mapsTo (pNumBins p) h j (N.of_nat a)).
Proof. exact (cuckoo_no_loss p lim c0 batches c). Qed.
Print Assumptions C01_cuckoo_no_loss.

Theorem C01_cuckoo_insert_defined p lim c0 batches :
  legalParams p -> init p (constructed lim) = Done c0 -> legalItems p (concat batches) ->
  insertBatches c0 batches ≠ UB /\ insertBatches c0 batches ≠ OutOfFuel.
Proof. exact (cuckoo_insert_defined p lim c0 batches). Qed.
Print Assumptions C01_cuckoo_insert_defined.

Theorem C01_cuckoo_insert_items enc p lim c0 xs c :
  legalParams p -> init p (constructed lim) = Done c0 ->
  (length xs <= pN p)%nat -> N.of_nat (pN p) < 2 ^ 56 ->
  insertItems enc c0 xs 0 = Done c ->
  (forall i, times (storedIndices c) i = if decide (i < N.of_nat (length xs)) then 1%nat else 0%nat) /\
  (forall a w i j, cBins c !! a = Some w -> entryOf w = Some (i, j) ->
     exists x, xs !! N.to_nat i = Some x /\ j < pNumHashes p /\
       mapsTo (pNumBins p) (N.lxor (enc x) x) j (N.of_nat a)).
Proof. exact (cuckoo_insert_items enc p lim c0 xs c). Qed.
Print Assumptions C01_cuckoo_insert_items.

(** A table with 30 bins, 3 hash functions, stash 2 takes 20 items in one batch (so the
    8-lane loop runs) and 3 more in a second one. *)
Definition exParams : CuckooParam := mkParam 2 30 3 40.
Definition exItem (i : N) : N * N := (i, (i * 0x9e3779b97f4a7c15f39cc0605cedc835) mod 2 ^ 128).
Definition exBatches : list (list (N * N)) :=
  [map exItem (map N.of_nat (seq 0 20)); map exItem (map N.of_nat (seq 25 3))].
Example C01_example :
  legalParams exParams /\ legalItems exParams (concat exBatches) /\
  exists c0 c, init exParams (constructed 20) = Done c0 /\ insertBatches c0 exBatches = Done c /\
    length (storedIndices c) = 23%nat.
Proof.
  split; [vm_compute; done|]. split.
  { split; [apply (bool_decide_unpack _); vm_compute; done|apply (bool_decide_unpack _); vm_compute; done]. }
  eexists _, _. split; [reflexivity|]. split; [vm_compute; reflexivity|vm_compute; reflexivity].
Qed.
Example C01_items_example :
  exists c0 c, init (mkParam 1 12 3 9) (constructed 50) = Done c0 /\
    insertItems (fun x => x * 12345678901234567891234567 + 77) c0 (map N.of_nat (seq 100 9)) 0 = Done c.
Proof. eexists _, _. split; vm_compute; reflexivity. Qed.

(** * C02: lookups *)

Theorem C02_cuckoo_find p lim c0 batches c q :
  legalParams p -> init p (constructed lim) = Done c0 -> legalItems p (concat batches) ->
  insertBatches c0 batches = Done c ->
  exists r, find c q = Some r /\
    (forall i pos, r = Some (i, pos) -> (i, q) ∈ concat batches /\
        exists w j, (cBins c ++ cStash c) !! N.to_nat pos = Some w /\ entryOf w = Some (i, j)) /\
    (r = None <-> forall i, (i, q) ∉ concat batches).
Proof. exact (cuckoo_find p lim c0 batches c q). Qed.
Print Assumptions C02_cuckoo_find.

Example C02_example :
  exists c0 c, init exParams (constructed 20) = Done c0 /\ insertBatches c0 exBatches = Done c /\
    (exists pos, find c (exItem 26).2 = Some (Some (26, pos))) /\ find c (exItem 24).2 = Some None.
Proof.
  eexists _, _. split; [reflexivity|]. split; [vm_compute; reflexivity|].
  split; [eexists|]; vm_compute; reflexivity.
Qed.

(** * C03: overflow *)

Theorem C03_cuckoo_overflow p lim c0 batches c b c' :
  legalParams p -> init p (constructed lim) = Done c0 -> legalItems p (concat batches ++ b) ->
  insertBatches c0 batches = Done c -> insertBatch c b = Thrown c' ->
  Forall (fun w => entryOf w ≠ None) (cStash c') /\ length (cStash c') = pStashSize p /\
  (forall i, (times (storedIndices c') i <= 1)%nat) /\
  (forall i, i ∈ storedIndices c' -> i ∈ (concat batches ++ b).*1) /\
  (exists lost, (length lost <= 8)%nat /\
     forall i, i ∈ (concat batches).*1 -> i ∉ storedIndices c' -> i ∈ lost) /\
  ((length b <= 16)%nat \/ pNumHashes p ≠ 3 ->
     exists x, forall i, i ∈ (concat batches).*1 -> i ∉ storedIndices c' -> i = x).
Proof. exact (cuckoo_overflow p lim c0 batches c b c'). Qed.
Print Assumptions C03_cuckoo_overflow.

(** Two items fit in the only two bins, the third goes to the stash, the fourth overflows. *)
Example C03_example :
  let p := mkParam 1 2 2 10 in
  let items := map (fun i => (i, i * 65537)) [0; 1; 2; 3] in
  exists c0 c c', init p (constructed 5) = Done c0 /\ legalItems p (concat [take 3 items] ++ drop 3 items) /\
    insertBatches c0 [take 3 items] = Done c /\ insertBatch c (drop 3 items) = Thrown c' /\
    length (storedIndices c') = 3%nat.
Proof.
  eexists _, _, _. split; [reflexivity|]. split; [|split; [|split]].
  { split; [apply (bool_decide_unpack _); vm_compute; done|apply (bool_decide_unpack _); vm_compute; done]. }
  all: vm_compute; reflexivity.
Qed.

(** * C04: batch lookup *)

(** The property would be: whenever the batch lookup returns, each output entry is the
    index found by the single lookup. *)
Definition batchLookupCorrect (c : Cuckoo) (qs out : list N) : Prop :=
  forall out', findBatch c qs out = Done out' ->
  forall k q i pos, qs !! k = Some q -> find c q = Some (Some (i, pos)) -> out' !! k = Some i.

Theorem C04_batch_lookup_refuted :
  exists p c0 items c qs out out',
    legalParams p /\ init p (constructed 200) = Done c0 /\ legalItems p items /\
    insertBatch c0 items = Done c /\ findBatch c qs out = Done out' /\ ~ batchLookupCorrect c qs out.
Proof.
  exists (mkParam 1 8 2 10). eexists _. exists [(0, 12345); (1, 99999)]. eexists _.
  exists [99999], (replicate 8 7), (replicate 8 7).
  split; [vm_compute; done|]. split; [reflexivity|]. split.
  { split; [apply (bool_decide_unpack _); vm_compute; done|apply (bool_decide_unpack _); vm_compute; done]. }
  split; [vm_compute; reflexivity|]. split; [vm_compute; reflexivity|].
  intros B. specialize (B (replicate 8 7)). feed specialize B; [vm_compute; reflexivity|].
  specialize (B 0%nat 99999). specialize (B 1). 
  assert (Some 7 = Some 1) as X; [|by injection X].
  eapply B; [reflexivity|]. vm_compute. reflexivity.
Qed.
Print Assumptions C04_batch_lookup_refuted.

(** It never writes anything at all to the caller's array. *)
Theorem C04_batch_lookup_writes_nothing_partial c qs out out' :
  findBatch c qs out = Done out' -> out' = out.
Proof. exact (findBatchSteps_same _ c qs out out out'). Qed.
Print Assumptions C04_batch_lookup_writes_nothing_partial.

Example C04_example :
  exists c0 c, init (mkParam 1 8 2 10) (constructed 200) = Done c0 /\
    insertBatch c0 [(0, 12345); (1, 99999)] = Done c /\
    findBatch c [12345; 99999] (replicate 8 5) = Done (replicate 8 5).
Proof. eexists _, _. split; [reflexivity|]. split; vm_compute; reflexivity. Qed.

(** * C05: concurrent insertion *)

(** Three items whose hash functions all select bin 0; thread 0 inserts two of
    them, thread 1 the third. Thread 0 finds stash slot 0 empty, thread 1 then uses it, thread 0 overwrites it. *)
Definition raceThreads : list (list (list (N * N))) := [[[(0, 0); (1, 0)]]; [[(2, 0)]]].
Definition raceSched (limit : nat) : list nat :=
  replicate (2 + 2 + 1 + (limit + 1) + 1) 0%nat ++ replicate (2 + (limit + 1) + 2) 1%nat ++ [0%nat].

Theorem C05_concurrent_refuted :
  exists p c0 bss sched,
    legalParams p /\ init p (constructed 200) = Done c0 /\ legalItems p (concat (concat bss)) /\
    let g := runSched (mkConfig c0 (map inserter bss)) sched in
    finished g /\ exists i, i ∈ (concat (concat bss)).*1 /\ i ∉ storedIndices (gTable g).
Proof.
  exists (mkParam 4 2 2 10). eexists _. exists raceThreads, (raceSched 200).
  split; [vm_compute; done|]. split; [reflexivity|]. split.
  { split; [apply (bool_decide_unpack _); vm_compute; done|apply (bool_decide_unpack _); vm_compute; done]. }
  intros g. split.
  - unfold g. apply Forall_forall. intros t Ht. revert t Ht. apply Forall_forall.
    vm_compute. repeat constructor.
  - exists 1. split; [apply (bool_decide_unpack _); vm_compute; done|].
    unfold g. apply (bool_decide_unpack _). vm_compute. done.
Qed.
Print Assumptions C05_concurrent_refuted.

(** Missing for the full property: schedules in which two threads are in the stash
    phase at the same time (for these it is false, see above). *)
Theorem C05_concurrent_exclusive_partial p lim c0 bss sched g :
  legalParams p -> init p (constructed lim) = Done c0 -> legalItems p (concat (concat bss)) ->
  exclusive (mkConfig c0 (map inserter bss)) sched ->
  runSched (mkConfig c0 (map inserter bss)) sched = g -> finished g ->
  (forall i, times (storedIndices (gTable g)) i =
     if decide (i ∈ (concat (concat bss)).*1) then 1%nat else 0%nat) /\
  (forall a w i j, cBins (gTable g) !! a = Some w -> entryOf w = Some (i, j) ->
     exists h, (i, h) ∈ concat (concat bss) /\ j < pNumHashes p /\ mapsTo (pNumBins p) h j (N.of_nat a)).
Proof. exact (cuckoo_concurrent_exclusive p lim c0 bss sched g). Qed.
Print Assumptions C05_concurrent_exclusive_partial.

(** An interleaving in which both threads evict and thread 0 alone uses the stash. *)
Example C05_example :
  let p := mkParam 1 4 2 10 in
  let bss := [[[(0, 0); (1, 65537)]]; [[(2, 0)]]] in
  let sched := concat (replicate 30 [0%nat; 1%nat]) in
  exists c0, init p (constructed 3) = Done c0 /\ legalItems p (concat (concat bss)) /\
    exclusive (mkConfig c0 (map inserter bss)) sched /\
    finished (runSched (mkConfig c0 (map inserter bss)) sched) /\
    cStash (gTable (runSched (mkConfig c0 (map inserter bss)) sched)) ≠ [emptyWord].
Proof.
  intros p bss sched. eexists. split; [reflexivity|]. split; [|split; [|split]].
  - split; apply (bool_decide_unpack _); vm_compute; done.
  - apply exclusiveb_ok. vm_compute. reflexivity.
  - vm_compute. repeat constructor.
  - vm_compute. discriminate.
Qed.

(** * C06: parameter selection *)

(** Requested values honoured. *)
Definition honours (n stash hh : N) (s : Selected) : Prop :=
  sStash s = stash /\ sHashes s = (if hh =? 0 then 3 else hh)%N /\ sN s = n /\
  (n <= selNumBins s)%N /\ (0 < selNumBins s)%N.

Theorem C06_select_params_refuted :
  exists log2d sec fuel n stat stash hh s,
    (1 <= n)%N /\ (0 <= log2d n)%Q /\
    selectParams log2d sec fuel n stat stash hh = Done (Some s) /\ ~ honours n stash hh s.
Proof.
  exists (fun _ => 10%Q), (fun _ _ e => (inject_Z e * 20)%Q), 10%nat, 1024%N, 40%N, 4%N, 2%N.
  eexists. split; [done|]. split; [done|]. split; [vm_compute; reflexivity|].
  intros [H _]. discriminate.
Qed.
Print Assumptions C06_select_params_refuted.

(** Everything but the stash size is honoured; the stash size returned is always zero. *)
Theorem C06_select_params_partial log2d sec fuel n stat stash hh s :
  (1 <= n)%N -> (0 <= log2d n)%Q ->
  selectParams log2d sec fuel n stat stash hh = Done (Some s) ->
  sHashes s = (if hh =? 0 then 3 else hh)%N /\ sN s = n /\ (n <= selNumBins s)%N /\ (0 < selNumBins s)%N /\
  sStash s = 0%N /\ (stash = 0%N \/ hh = 2%N).
Proof. exact (selectParams_ok log2d sec fuel n stat stash hh s). Qed.
Print Assumptions C06_select_params_partial.

(** The expansion factor meets the requested security level under the estimate in use, and no smaller one (of those tried) does. *)
Theorem C06_secure log2d sec fuel n stat stash hh s :
  (1 <= n)%N -> (1 <= stat)%N -> selectParams log2d sec fuel n stat stash hh = Done (Some s) ->
  (sHashes s = 3%N /\ (240 * sScale s - 256 - log2d n == inject_Z (Z.of_N stat))%Q) \/
  (sHashes s = 2%N /\ exists e, sScale s = inject_Z e /\ (1 < e)%Z /\ (inject_Z (Z.of_N stat) <= sec n stash e)%Q /\
     forall e', (1 < e' < e)%Z -> ~ (inject_Z (Z.of_N stat) <= sec n stash e')%Q).
Proof. exact (selectParams_secure log2d sec fuel n stat stash hh s). Qed.
Print Assumptions C06_secure.

Example C06_example_two : selectParams (fun _ => 10%Q) (fun _ _ e => (inject_Z e * 8)%Q) 10 1024 40 4 2 = Done (Some (mkSelected 0 5 2 1024)).
Proof. reflexivity. Qed.

Example C06_example :
  exists s, selectParams (fun _ => 20%Q) (fun _ _ _ => 0%Q) 5 1048576 40 0 3 = Done (Some s) /\
    selNumBins s = 1380625%N.
Proof. eexists. split; [reflexivity|vm_compute; reflexivity]. Qed.

(** * C11: packed words decode to what was encoded *)

Theorem C11_cuckoo_word idx hashIdx :
  idx < 2 ^ 56 - 1 -> hashIdx < 2 ^ 8 ->
  entryOf (packWord idx hashIdx) = Some (idx, hashIdx) /\
  wordIdx (packWord idx hashIdx) = idx /\ wordHash (packWord idx hashIdx) = hashIdx /\
  isEmpty (packWord idx hashIdx) = false /\ packWord idx hashIdx < 2 ^ 64.
Proof. exact (packWord_ok idx hashIdx). Qed.
Print Assumptions C11_cuckoo_word.
Example C11_cuckoo_example : entryOf (packWord 123456 2) = Some (123456, 2).
Proof. reflexivity. Qed.
