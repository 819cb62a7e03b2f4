(** Model of concurrent insertion in the bins of [SimpleHasher],
    libPSI/Tools/SimpleHasher.h:29-49. Threads take turns; a turn is one of the two memory accesses
    of [push]: the [fetch_add] on the bin's counter, or the store of the value. A
    schedule is any list of thread numbers. Relaxed atomics are modelled as sequentially
    consistent: each counter is a single location and each slot is written once and read
    only after the threads are joined. *)
From Verif Require Import Base.

(** SimpleHasher.h:29-32: the counters [mBinSizes] (8-bit) and the rows of [mBins_]. *)
Record hasher := mkHasher { hSizes : list N; hRows : list (list N) }.

(** SimpleHasher.cpp:465-472, the arrays after [init] with [bins] bins of [cap] slots; counters
    start at zero. [init] throws if [cap > 255]. *)
Definition hInit (bins : nat) (cap : N) : outcome hasher :=
  let h := mkHasher (replicate bins 0) (replicate bins (replicate (N.to_nat cap) 0)) in
  if 255 <? cap then Thrown h else Done h.

(** A thread: possibly in the middle of a push (bin, reserved slot, value),
    and the pushes still to do. SimpleHasher.h:35-39. *)
Record pusher := mkPusher { puPending : option (N * N * N); puTodo : list (N * N) }.

(** One turn, SimpleHasher.h:35-39. [None]: no such bin, or a slot beyond the bin's row. *)
Definition pushStep (h : hasher) (t : pusher) : option (hasher * pusher) :=
  match puPending t with
  | Some (b, pos, v) =>
      match readN (hRows h) b with
      | None => None
      | Some row =>
          match writeN row pos v with
          | None => None
          | Some row' => Some (mkHasher (hSizes h) (<[N.to_nat b := row']> (hRows h)),
                               mkPusher None (puTodo t))
          end
      end
  | None =>
      match puTodo t with
      | [] => Some (h, t)
      | (b, v) :: todo =>
          match readN (hSizes h) b with
          | None => None
          | Some n => Some (mkHasher (<[N.to_nat b := (n + 1) mod 256]> (hSizes h)) (hRows h),
                            mkPusher (Some (b, n, v)) todo)
          end
      end
  end.

(** SimpleHasher.h:35-39: a schedule of turns. *)
Fixpoint pushRun (h : hasher) (ts : list pusher) (sched : list nat) : option (hasher * list pusher) :=
  match sched with
  | [] => Some (h, ts)
  | k :: sched' =>
      match ts !! k with
      | None => pushRun h ts sched'
      | Some t =>
          match pushStep h t with
          | None => None
          | Some (h', t') => pushRun h' (<[k := t']> ts) sched'
          end
      end
  end.

(** SimpleHasher.h:41-49, [getBin]: the first [getBinSize] slots of the row. *)
Definition getBin (h : hasher) (b : nat) : list N :=
  match hSizes h !! b, hRows h !! b with
  | Some n, Some row => take (N.to_nat n) row
  | _, _ => []
  end.
