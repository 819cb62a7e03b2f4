(** Concurrent insertion in the cuckoo index (Mode = ThreadSafe),
    libPSI/Tools/CuckooIndex2.cpp:299-470 with the atomic [Bin::swap] of CuckooIndex2.h:92-103.

    Threads take turns; one turn is one access to shared memory: a write to [mHashes], an atomic
    exchange on a bin or stash slot, or an atomic load of a stash slot. A schedule is an
    arbitrary list of thread numbers. Simplifications: sequentially
    consistent memory (the C++ uses relaxed atomics and plain writes to [mHashes]);
    the 8-lane fast path, which only runs for batches of more than 16 items, is not used (the
    public [insert(items, seed)] passes at most 16 items, .cpp:226-244). *)
From Verif Require Import Base CuckooIndex_Model.

(** What a thread still has to execute: [mHashes[i] = h] (.cpp:325, 426) and
    [insertOne(i, 0, 0)] (.cpp:418, 427). *)
Inductive action :=
| ASet (i h : N)
| AIns (i : N).

(** Where a thread is: between actions; in the loop of [insertOne] with an item in
    hand ([lft] = tries left); scanning the stash at slot [k] (.cpp:455-464); about to
    swap into stash slot [k] (.cpp:465); after "stash overflow" (.cpp:462); or in
    undefined behaviour. *)
Inductive pc :=
| Idle
| Hand (idx hashIdx : N) (lft : nat)
| Scan (idx hashIdx : N) (k : N)
| Put (idx hashIdx : N) (k : N)
| Failed (idx : N)
| Stuck.

(** A thread that calls [insert]: its place in CuckooIndex2.cpp:299-470 and
    the actions left. *)
Record thread := mkThread { tPc : pc; tProg : list action }.

(** One turn of a thread on the shared object. CuckooIndex2.cpp:325, 418-427
    and 433-470. *)
Definition stepThread (c : Cuckoo) (t : thread) : Cuckoo * thread :=
  match tPc t with
  | Idle =>
      match tProg t with
      | [] => (c, t)
      | ASet i h :: p =>
          match setHash c i h with
          | None => (c, mkThread Stuck p)
          | Some c' => (c', mkThread Idle p)
          end
      | AIns i :: p => (c, mkThread (Hand i 0 (cLimit c)) p)
      end
  | Hand idx hi lft =>
      match getHashOf (cHashes c) (pNumBins (cParams c)) idx hi with
      | None => (c, mkThread Stuck (tProg t))
      | Some a =>
          match swapAt (cBins c) a idx hi with
          | None => (c, mkThread Stuck (tProg t))
          | Some (bins', idx', hi') =>
              (mkCuckoo (cParams c) (cLimit c) (cHashes c) bins' (cStash c),
               mkThread
                 (if idx' =? nullIdx then Idle
                  else match lft with
                       | O => Scan idx' hi' 0
                       | S lft' => Hand idx' ((1 + hi') mod pNumHashes (cParams c)) lft'
                       end) (tProg t))
          end
      end
  | Scan idx hi k =>
      if k =? N.of_nat (length (cStash c)) then (c, mkThread (Failed idx) (tProg t))
      else match readN (cStash c) k with
           | None => (c, mkThread Stuck (tProg t))
           | Some w => (c, mkThread (if isEmpty w then Put idx hi k else Scan idx hi (k + 1)) (tProg t))
           end
  | Put idx hi k =>
      match swapAt (cStash c) k idx hi with
      | None => (c, mkThread Stuck (tProg t))
      | Some (st', _, _) =>
          (* the value swapped out is dropped: .cpp:465-466 returns *)
          (mkCuckoo (cParams c) (cLimit c) (cHashes c) (cBins c) st', mkThread Idle (tProg t))
      end
  | Failed _ | Stuck => (c, t)
  end.

(** The object with the threads that call [insert],
    CuckooIndex2.cpp:299-470. *)
Record config := mkConfig { gTable : Cuckoo; gThreads : list thread }.

(** Thread number [n] makes a turn in CuckooIndex2.cpp:299-470. *)
Definition stepAt (g : config) (n : nat) : config :=
  match gThreads g !! n with
  | None => g
  | Some t => let '(c', t') := stepThread (gTable g) t in
              mkConfig c' (<[n := t']> (gThreads g))
  end.

(** The turns of a schedule, CuckooIndex2.cpp:299-470. *)
Definition runSched (g : config) (sched : list nat) : config := foldl stepAt g sched.

(** The actions one batch of at most 16 items produces, .cpp:309-333, 413-429: hashes of
    the first 8 items, insertion of these, then the others one by one. *)
Definition batchProgram (items : list (N * N)) : list action :=
  map (fun x => ASet x.1 x.2) (take 8 items) ++ map (fun x => AIns x.1) (take 8 items) ++
  concat (map (fun x => [ASet x.1 x.2; AIns x.1]) (drop 8 items)).

(** A thread that inserts a list of batches. The calls of [insert] in
    CuckooIndex2.cpp:230-245, 253-263. *)
Definition inserter (bs : list (list (N * N))) : thread :=
  mkThread Idle (concat (map batchProgram bs)).

(** ** Vocabulary for statements about runs (specification, not code) *)

(** The thread is between the decision to use the stash and the swap into
    it. CuckooIndex2.cpp:455-465. *)
Definition inStash (p : pc) : Prop :=
  match p with Scan _ _ _ | Put _ _ _ => True | _ => False end.

(** No two threads are in the stash part of the insertion at the same time.
    CuckooIndex2.cpp:455-465. *)
Definition oneInStash (g : config) : Prop :=
  forall n m t u, gThreads g !! n = Some t -> gThreads g !! m = Some u ->
    inStash (tPc t) -> inStash (tPc u) -> n = m.

(** ... at any point of the run given by the schedule.
    CuckooIndex2.cpp:455-465. *)
Fixpoint exclusive (g : config) (sched : list nat) : Prop :=
  oneInStash g /\
  match sched with
  | [] => True
  | n :: sched' => exclusive (stepAt g n) sched'
  end.

(** All threads have run to completion without an exception.
    CuckooIndex2.cpp:430, 466. *)
Definition finished (g : config) : Prop :=
  Forall (fun t => tPc t = Idle /\ tProg t = []) (gThreads g).

