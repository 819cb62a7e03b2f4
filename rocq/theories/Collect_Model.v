(** How the threads of a receiver put their results into the common vector [mIntersection].

    Simplifications: a change of the vector begins and ends in two separate steps of its thread; a change that begins while another thread is inside of one is
    undefined behaviour (a data race on the vector). A [std::lock_guard] is an acquisition that waits, and a release at the end of its scope.
    The order of the steps is given by a schedule; a thread that waits for the lock lets its turn pass. *)
From Verif Require Import Base Partition_Model Prty_Model.

(** Acquire and release the mutex; begin and end of appending a list to the
    vector. PrtyReceiver.cpp:255-256, EcdhPsiReceiver.cpp:149,
    Rr17aMPsiReceiver.cpp:618-629, Rr17bMPsiReceiver.cpp:504-515,
    Grr18MPsiReceiver.cpp:651-662, AknBfMPsiReceiver.cpp:392-399. *)
Inductive op := Acquire | Release | Begin | End (l : list nat).
(** The vector, the holder of the mutex, the thread inside of a change, what
    the threads have still to do. The shared variables at the lines just
    cited. *)
Record cstate := mkC { cVec : list nat; cLock : option nat; cInside : option nat; cTodo : list (list op) }.

(** One step of thread [t] at the lines just cited. *)
Definition cStep (s : cstate) (t : nat) : outcome cstate :=
  match cTodo s !! t with
  | Some (o :: rest) =>
      let next := <[t := rest]> (cTodo s) in
      match o with
      | Acquire => match cLock s with
                   | None => Done (mkC (cVec s) (Some t) (cInside s) next)
                   | Some _ => Done s
                   end
      | Release => Done (mkC (cVec s) None (cInside s) next)
      | Begin => match cInside s with
                 | None => Done (mkC (cVec s) (cLock s) (Some t) next)
                 | Some _ => UB
                 end
      | End l => Done (mkC (cVec s ++ l) (cLock s) None next)
      end
  | _ => Done s
  end.
(** Threads of the receivers under a schedule (the lines just cited). *)
Definition cRun (sched : list nat) (s : cstate) : outcome cstate := foldl (fun o t => andThen o (fun s => cStep s t)) (Done s) sched.
(** [mIntersection] before the threads start, for example before
    PrtyReceiver.cpp:294. *)
Definition cStart (v : list nat) (scripts : list (list op)) : cstate := mkC v None None scripts.
(** All threads have been joined. For example PrtyReceiver.cpp:294-302. *)
Definition cDone (s : cstate) : Prop := Forall (fun l => l = []) (cTodo s).

(** A change under the lock, and without it. With the lock as in
    PrtyReceiver.cpp:255-256, without as in :260. *)
Definition guarded (l : list nat) : list op := [Acquire; Begin; End l; Release].
(** PrtyReceiver.cpp:260, 276: no lock. *)
Definition bare (l : list nat) : list op := [Begin; End l].

(** PSI/Prty/PrtyReceiver.cpp:239-281 ([output]): one push per match; with masks of at least eight bytes and several threads under the lock (253-257), otherwise without (260, 276). *)
Definition prtyPushes (hb T : nat) (l : list nat) : list op :=
  concat (map (fun x => if ((8 <=? hb) && (1 <? T))%nat then guarded [x] else bare [x]) l).
(** PSI/Prty/PrtyReceiver.cpp:535-543 ([outputBestComm]), 938-946 ([outputBigPoly]). *)
Definition prtyPushes2 (T : nat) (l : list nat) : list op := concat (map (fun x => if (1 <? T)%nat then guarded [x] else bare [x]) l).
(** MPSI/Rr17/Rr17a/Rr17aMPsiReceiver.cpp:616-631, Rr17b/Rr17bMPsiReceiver.cpp:502-517, Grr18/Grr18MPsiReceiver.cpp:649-664: the list of the thread, if not empty, under the lock.
    (Moving the list into the vector happens only while the vector is empty.) *)
Definition mergeOnce (l : list nat) : list op := match l with [] => [] | _ => guarded l end.
(** MPSI/Rr16/AknBfMPsiReceiver.cpp:391-400: always, under the lock. *)
Definition mergeAlways (l : list nat) : list op := guarded l.
(** PSI/ECDH/EcdhPsiReceiver.cpp:212-215, MPSI/DKT/DktMPsiReceiver.cpp:517-524: thread 0 pushes to the vector, the others to lists of their own. *)
Definition firstPushes (ls : list (list nat)) : list (list op) :=
  imap (fun t l => match t with O => concat (map (fun x => bare [x]) l) | S _ => [] end) ls.
(** EcdhPsiReceiver.cpp:235-245, DktMPsiReceiver.cpp:543-555: after the join the other lists are appended in order. *)
Definition firstMerge (ls : list (list nat)) (s : cstate) : list nat := cVec s ++ concat (tail ls).

(** The threads of [PrtyReceiver::output] (Prty_Model [matchAll]), with the
    pushes. PrtyReceiver.cpp:219-302. *)
Definition prtyCollect (ord : N -> list (N * nat) -> list (N * nat)) (step hb T n2 : nat) (es : list entry) (gh : N -> list N) : option (list (list op)) :=
  option_map (map (prtyPushes hb T)) (mapM (fun t => recvSteps ord es hb (stepsOf step n2 T t) (sendThread step hb T gh t)) (seq 0 T)).
