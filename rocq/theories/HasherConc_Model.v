(** Concurrent insertion in [CuckooHasher] with [THREAD_SAFE_CUCKOO_HASHER], which
    libPSI/Tools/CuckooHasher.h:12 defines: libPSI/Tools/CuckooHasher.cpp:162-346, called by several
    threads on one object as in libPSI_Tests/BinOtPsi_Tests.cpp:83-140.

    Threads take turns; one turn is one access to shared memory: a read or write of one word
    of [mHashes], or an atomic exchange on a bin or stash slot. A schedule is an arbitrary list of
    thread numbers. Simplifications: sequentially consistent memory (the C++ uses relaxed
    atomics and plain accesses to [mHashes]; the data race is stated separately, see [racy]); the entries of
    [inputIdxs] and of the workspace beyond [remaining] are not kept, since nothing reads them; release
    build; [find] is not run as a thread. *)
From Verif Require Import Base CuckooHasher_Model.

(** The running call: [insert] or [insertBatch]. CuckooHasher.cpp:161-171
    and 173-291. *)
Inductive mode := One | Many.

(** A call a thread makes: [insert(idx, row)], or [insertBatch(idxs, hashs, w)] with a workspace
    of size [ws]. CuckooHasher.cpp:161, 173-176. *)
Inductive call :=
| CInsert (idx : N) (row : list N)
| CBatch (ws : nat) (idxs hashs : list N).

(** Where a thread is. [items] are the lanes [(inputIdxs[i], curHashIdxs[i])] for [i < remaining];
    [tries] is the number of further rounds, 100 minus [numTries] or [tryCount].
    - [Check]: before the read .cpp:163;
    - [Write]: copying hash rows, .cpp:168 and 190-203; [pend] = the writes (position, word) still to do,
      [items] the items to insert afterwards;
    - [Fetch]: .cpp:299 and 214-218, [addrs] = the addresses fetched so far;
    - [Exch]: .cpp:307-321 and 221-230, [olds] = the words swapped out so far;
    - [Stash]: .cpp:336-340 and 277-290, before slot [j];
    - [Failed]: after the exception of .cpp:166 or 282; [Stuck]: undefined behaviour; both keep the items
      that are not in the table. *)
Inductive pc :=
| Idle
| Check (idx : N) (row : list N)
| Write (m : mode) (pend : list (N * N)) (items : list (N * N))
| Fetch (m : mode) (tries : nat) (items : list (N * N)) (addrs : list N)
| Exch (m : mode) (tries : nat) (items : list (N * N)) (addrs olds : list N)
| Stash (m : mode) (items : list (N * N)) (j : N)
| Failed (items : list (N * N))
| Stuck (items : list (N * N)).

(** A thread that makes such calls, CuckooHasher.cpp:161-346: its place and
    the calls left. *)
Record thread := mkThread { tPc : pc; tProg : list call }.

(** The writes of one row: words [src], [src+1], ... of [from] to positions [dst], [dst+1], ...
    of [mHashes]; [None]: out of bounds read. CuckooHasher.cpp:168, 200. *)
Fixpoint rowWrites (n : nat) (from : list N) (src dst : N) : option (list (N * N)) :=
  match n with
  | O => Some []
  | S n' =>
      match readN from src with
      | None => None
      | Some x =>
          match rowWrites n' from (src + 1) (dst + 1) with
          | None => None
          | Some l => Some ((dst, x) :: l)
          end
      end
  end.

(** CuckooHasher.cpp:188-206, the writes for a batch. *)
Fixpoint batchWrites (num : N) (idxs : list N) (hashs : list N) (i : N) : option (list (N * N)) :=
  match idxs with
  | [] => Some []
  | idx :: idxs' =>
      match rowWrites (N.to_nat num) hashs ((i * num) mod two64) ((idx * num) mod two64) with
      | None => None
      | Some l =>
          match batchWrites num idxs' hashs (i + 1) with
          | None => None
          | Some l' => Some (l ++ l')
          end
      end
  end.

(** After the rows are copied: [insertHelper(idx, 0, 0)] (.cpp:171) or the loop head .cpp:209. *)
Definition enter (m : mode) (items : list (N * N)) : pc :=
  match items with [] => Idle | _ => Fetch m 100 items [] end.

(** .cpp:301 and 217: the address of the word read from [mHashes]; no bins: division by zero. *)
Definition addrOf (c : Hasher) (idx h : N) : option N :=
  match cell c idx h with
  | None => None
  | Some x => if N.of_nat (length (hBins c)) =? 0 then None else Some (x mod N.of_nat (length (hBins c)))
  end.

(** After the exchanges of a round. [One], .cpp:313-341: done, next try or stash. [Many], .cpp:240-275
    and the loop condition .cpp:209: compaction, next round or stash. *)
Definition afterRound (num : N) (m : mode) (tries : nat) (items : list (N * N)) (olds : list N) : pc :=
  match m with
  | One =>
      match olds with
      | [] => Idle
      | old :: _ =>
          if binEmpty old then Idle
          else match tries with
               | O => Stash One [(binIdx old, binHash old)] 0
               | S tries' => Fetch One tries' [(binIdx old, (binHash old + 1) mod num)] []
               end
      end
  | Many =>
      let '(l, r) := compact num (length items) (mkLanes items.*1 items.*2 olds) in
      let items' := take r (zip (lIdx l) (lHash l)) in
      match items', tries with
      | [], _ => Idle
      | _, S (S tries') => Fetch Many (S tries') items' []
      | _, _ => Stash Many items' 0
      end
  end.

(** One turn of a thread on the shared object. CuckooHasher.cpp:161-346,
    lines at [pc]. *)
Definition stepThread (c : Hasher) (t : thread) : Hasher * thread :=
  let stay p := (c, mkThread p (tProg t)) in
  match tPc t with
  | Idle =>
      match tProg t with
      | [] => (c, t)
      | CInsert idx row :: p => (c, mkThread (Check idx row) p)
      | CBatch ws idxs hashs :: p =>
          if (ws <? length idxs)%nat then (c, mkThread (Stuck ((fun i => (i, 0)) <$> idxs)) p)
          else match batchWrites (hNum c) idxs hashs 0 with
               | None => (c, mkThread (Stuck ((fun i => (i, 0)) <$> idxs)) p)
               | Some pend => (c, mkThread (Write Many pend ((fun i => (i, 0)) <$> idxs)) p)
               end
      end
  | Check idx row =>
      match cell c idx 0 with
      | None => stay (Stuck [(idx, 0)])
      | Some x =>
          if negb (x =? minus1) then stay (Failed [(idx, 0)])
          else match rowWrites (N.to_nat (hNum c)) row 0 ((idx * hNum c) mod two64) with
               | None => stay (Stuck [(idx, 0)])
               | Some pend => stay (Write One pend [(idx, 0)])
               end
      end
  | Write m [] items => stay (enter m items)
  | Write m ((k, x) :: pend) items =>
      match writeN (hRows c) k x with
      | None => stay (Stuck items)
      | Some rows' =>
          (mkHasher (hNum c) rows' (hBins c) (hStash c), mkThread (Write m pend items) (tProg t))
      end
  | Fetch m tries items addrs =>
      match items !! length addrs with
      | None => stay (Exch m tries items addrs [])
      | Some (idx, h) =>
          match addrOf c idx h with
          | None => stay (Stuck items)
          | Some a => stay (Fetch m tries items (addrs ++ [a]))
          end
      end
  | Exch m tries items addrs olds =>
      match items !! length olds, addrs !! length olds with
      | Some (idx, h), Some a =>
          match readN (hBins c) a with
          | None => stay (Stuck items)
          | Some old =>
              (mkHasher (hNum c) (hRows c) (<[N.to_nat a := binVal idx h]> (hBins c)) (hStash c),
               mkThread (Exch m tries items addrs (olds ++ [old])) (tProg t))
          end
      | _, _ => stay (if hNum c =? 0 then Stuck items else afterRound (hNum c) m tries items olds)
      end
  | Stash m [] j => stay Idle
  | Stash m ((idx, h) :: items) j =>
      match readN (hStash c) j with
      | None => stay (match m with One => Stuck ((idx, h) :: items) | Many => Failed ((idx, h) :: items) end)
      | Some old =>
          (mkHasher (hNum c) (hRows c) (hBins c) (<[N.to_nat j := binVal idx h]> (hStash c)),
           mkThread (Stash m (if binEmpty old then items else (binIdx old, binHash old) :: items) (j + 1))
             (tProg t))
      end
  | Failed _ | Stuck _ => (c, t)
  end.

(** The object with the threads that call [insert] and [insertBatch],
    CuckooHasher.cpp:161-346. *)
Record config := mkConfig { gTable : Hasher; gThreads : list thread }.

(** Thread number [n] makes a turn in CuckooHasher.cpp:161-346. *)
Definition stepAt (g : config) (n : nat) : config :=
  match gThreads g !! n with
  | None => g
  | Some t => let '(c', t') := stepThread (gTable g) t in mkConfig c' (<[n := t']> (gThreads g))
  end.

(** The turns of a schedule, CuckooHasher.cpp:161-346. *)
Definition runSched (g : config) (sched : list nat) : config := foldl stepAt g sched.

(** The access to [mHashes] that the next turn of a thread makes, all of them plain (not
    atomic): (is it a write, position). Same lines as [stepThread].
    CuckooHasher.cpp:163, 168, 200, 215, 299. *)
Definition plainAccess (c : Hasher) (t : thread) : option (bool * N) :=
  match tPc t with
  | Check idx _ => Some (false, (idx * hNum c) mod two64)
  | Write _ ((k, _) :: _) _ => Some (true, k)
  | Fetch _ _ items addrs =>
      match items !! length addrs with
      | Some (idx, h) => Some (false, (idx * hNum c) mod two64 + h)
      | None => None
      end
  | _ => None
  end.

(** The plain accesses of a run: (thread, is it a write, position).
    CuckooHasher.cpp:163, 168, 200, 215, 299. *)
Fixpoint accesses (g : config) (sched : list nat) : list (nat * bool * N) :=
  match sched with
  | [] => []
  | n :: sched' =>
      match gThreads g !! n ≫= plainAccess (gTable g) with
      | Some (wr, k) => [(n, wr, k)]
      | None => []
      end ++ accesses (stepAt g n) sched'
  end.
