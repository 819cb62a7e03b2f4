(** Model of the measurement of stash sizes, frontend/cuckoo/cuckooTests.cpp ("Tests"): [runOne] with its threads and its watching loop, and the loops of
    [simpleTest].

    A trial (one cuckoo table filled with random items) is given by the value that [stashUtilization] returns; [None]: the branch [encrypto], which leaves
    [stashSize] without a value. An increment of a counter and a read of a counter are single steps: the program has no synchronisation between them, which
    C++ does not allow; aligned words are taken to be read and written whole, and every read goes to memory. Printing and the sleep are left out. *)
From Verif Require Import Base.
Local Open Scope nat_scope.

(** Tests:75: 400 counters for each thread. *)
Definition width : nat := 400.
(** Tests:90-92: [startIdx], [endIdx], [count] of thread [t] of [T] for [tries] trials, with words of 64 bits. *)
Definition shareOf (tries T t : N) : N :=
  let s := (t * tries mod two64 / T)%N in let e := ((t + 1) * tries mod two64 / T)%N in ((e + two64 - s) mod two64)%N.

(** The main thread: in the watching loop (Tests:170-223) or in the second pass (Tests:226-232), with the position of the next read and the array [count]; at
    the end with the array it prints. *)
Inductive mphase := Watch (pos : nat) (acc : list nat) | Final (pos : nat) (acc : list nat) | Printed (acc : list nat).
(** [todo]: the trials that each thread still makes; [counts]: the rows of
    counters. Tests:59-287 ([runOne]), before its end. *)
Record mstate := mkM { todo : list (list (option nat)); counts : list (list nat); phase : mphase }.

(** A row of counters at the start, Tests:75. *)
Definition zeros (W : nat) : list nat := replicate W 0.
(** Tests:74-76. *)
Definition mstart (W : nat) (trials : list (list (option nat))) : mstate := mkM trials (map (fun _ => zeros W) trials) (Watch 0 (zeros W)).
(** Tests:178-180, 230-232: the read with number [pos], row by row. *)
Definition cellAt (W : nat) (c : list (list nat)) (pos : nat) : nat := nth (pos mod W) (nth (pos / W) c []) 0.
(** Tests:178-180, 230-232. *)
Definition readCell (W : nat) (c : list (list nat)) (pos : nat) (acc : list nat) : list nat := alter (Nat.add (cellAt W c pos)) (pos mod W) acc.
(** One step of the main thread for [T] threads and [total] trials. [None]:
    it has ended. Tests:170-232. *)
Definition mainStep (W T total : nat) (c : list (list nat)) (m : mphase) : option mphase :=
  match m with
  | Watch pos acc =>
      if pos <? T * W then Some (Watch (S pos) (readCell W c pos acc))
      else if sum_list acc =? total then Some (Final 0 (zeros W)) else Some (Watch 0 (zeros W))
  | Final pos acc => if pos <? T * W then Some (Final (S pos) (readCell W c pos acc)) else Some (Printed acc)
  | Printed _ => None
  end.
(** Tests:94-158: one trial of thread [t]. [counts[t][s]] with [s] beyond the row, or without a value, is undefined. [Thrown]: the thread has no trial left. *)
Definition workStep (W : nat) (st : mstate) (t : nat) : outcome mstate :=
  match todo st !! t with
  | Some (Some s :: l) => if s <? W then Done (mkM (<[t := l]> (todo st)) (alter (alter S s) t (counts st)) (phase st)) else UB
  | Some (None :: _) => UB
  | _ => Thrown st
  end.
(** A schedule: [Some t] a step of thread [t], [None] a step of the main
    thread. [Thrown]: not a schedule of the program. Tests:59-287. *)
Fixpoint mrun (W T total : nat) (st : mstate) (tr : list (option nat)) : outcome mstate :=
  match tr with
  | [] => Done st
  | Some t :: tr' => match workStep W st t with Done st' => mrun W T total st' tr' | o => o end
  | None :: tr' => match mainStep W T total (counts st) (phase st) with Some m => mrun W T total (mkM (todo st) (counts st) m) tr' | None => Thrown st end
  end.

(** Tests:241-267: for each stash size below [stashSize] the numbers [good] and [bad], and whether the level is printed as a lower bound, an upper bound or a
    value. [None]: a read beyond [count]. *)
Inductive level := AtLeast | AtMost | Value.
(** Tests:241-267, from stash size [i] on. *)
Fixpoint reportFrom (k i good : nat) (total : nat) (count : list nat) : option (list (nat * nat * level)) :=
  match k with
  | O => Some []
  | S k' =>
      match count !! i with
      | None => None
      | Some c =>
          let good' := good + c in let bad := total - good' in
          match reportFrom k' (S i) good' total count with
          | Some l => Some ((good', bad, if bad =? 0 then AtLeast else if good' =? 0 then AtMost else Value) :: l)
          | None => None
          end
      end
  end.
(** Tests:241-267. *)
Definition report (stashSize : nat) (count : list nat) : option (list (nat * nat * level)) := reportFrom stashSize 0 0 (sum_list count) count.

(** Tests:392-408: the values of [n] for which [simpleTest] measures, with words of 64 bits. *)
Fixpoint sizesFrom (fuel : nat) (nStep nEnd n : N) : outcome (list N) :=
  match fuel with
  | O => OutOfFuel
  | S f => if (n <=? nEnd)%N then match sizesFrom f nStep nEnd (n * 2 ^ nStep mod two64)%N with Done l => Done (n :: l) | o => o end else Done []
  end.
