(** Specification vocabulary for concurrent insertions in [CuckooHasher]. *)
From Verif Require Import Base CuckooHasher_Model CuckooHasher_Spec HasherConc_Model.

(** The call with the items as (index, hash row) pairs. *)
Definition callOf (o : op) : call :=
  match o with
  | OInsert i row => CInsert i row
  | OBatch ws items => CBatch ws items.*1 (concat items.*2)
  end.

(** The threads, one list of calls each, before they start. *)
Definition start (c : Hasher) (progs : list (list op)) : config :=
  mkConfig c (map (fun os => mkThread Idle (map callOf os)) progs).

(** The thread has made all its calls, and they returned. *)
Definition returned (t : thread) : Prop := tPc t = Idle /\ tProg t = [].
Definition allReturned (g : config) : Prop := Forall returned (gThreads g).

(** The thread does nothing any more. *)
Definition stopped (t : thread) : Prop :=
  returned t \/ (exists l, tPc t = Failed l) \/ (exists l, tPc t = Stuck l).

(** Two plain accesses of different threads to one word of which one is a write. The only atomic operations
    are relaxed, so nothing orders accesses of different threads: in C++ this is a data race. *)
Definition racy (tr : list (nat * bool * N)) : Prop :=
  exists t1 t2 wr k, t1 ≠ t2 /\ (t1, true, k) ∈ tr /\ (t2, wr, k) ∈ tr.

(** Turns a thread needs at most for a call on a table with [num] hash functions and [stash] stash slots. *)
Definition turns (num stash : N) (o : op) : N :=
  let k := N.of_nat (length (opItems o)) in 4 + num * k + 101 * (2 * k + 2) + stash.

(** ... for a list of calls. *)
Fixpoint opsTurns (num stash : N) (os : list op) : N :=
  match os with [] => 0 | o :: os' => turns num stash o + opsTurns num stash os' end.

(** Turns of thread [k] in a schedule. *)
Definition turnsOf (k : nat) (sched : list nat) : N :=
  N.of_nat (length (List.filter (Nat.eqb k) sched)).
