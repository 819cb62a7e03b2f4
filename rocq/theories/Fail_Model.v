(** What happens to the caller of [sendInput] when a check fails: the threads of the protocols and where they throw. libPSI/PSI and libPSI/MPSI.

    A check is a statement that throws when it does not hold: [throw std::runtime_error(LOCATION)], or a receive of a message of the wrong size or on a closed channel; [true]: it holds. An
    exception that leaves the function of a [std::thread] ends the process ([std::terminate]), and so does one that destroys a [std::thread] that is not joined yet. No function of these protocols catches exceptions.
    Simplification: waiting (for messages, promises) is a thread that is not scheduled. *)
From Verif Require Import Base.

(** A part of [sendInput]: checks of the caller while no thread runs; the checks of each thread it then starts; its own checks until it joins them. For example
    Rr17aMPsiReceiver.cpp:272-641. *)
Record part := mkPart { pFirst : list bool; pThreads : list (list bool); pOwn : list bool }.
(** How [sendInput] ends. For all files below. *)
Inductive ending := Running | Returned | Exception | Terminated.
(** The state: checks of the caller left, the threads (if started) with their checks left, and the parts to come. For all files below. *)
Record state := mkState { sFirst : list bool; sThreads : list (list bool); sOwn : list bool; sStarted : bool; sRest : list part }.

(** The part [p] begins. For all files below. *)
Definition enter (p : part) (rest : list part) : state := mkState (pFirst p) (pThreads p) (pOwn p) false rest.
(** A step of the caller. [std::vector<std::thread> thrds] is destroyed unjoined when the caller throws after the start, for example Rr17aMPsiReceiver.cpp:325-641, DktMPsiReceiver.cpp:534-547. *)
Definition callerStep (s : state) : state + ending :=
  if sStarted s then
    match sOwn s with
    | true :: own => inl (mkState [] (sThreads s) own true (sRest s))
    | false :: _ => inr (match sThreads s with [] => Exception | _ => Terminated end)
    | [] => if forallb (fun l : list bool => match l with [] => true | _ => false end) (sThreads s)
            then match sRest s with [] => inr Returned | p :: r => inl (enter p r) end
            else inl s
    end
  else match sFirst s with
       | true :: f => inl (mkState f (sThreads s) (sOwn s) false (sRest s))
       | false :: _ => inr Exception
       | [] => inl (mkState [] (sThreads s) (sOwn s) true (sRest s))
       end.
(** A step of thread [i], if it has been started. For example Rr17aMPsiReceiver.cpp:330-636. *)
Definition threadStep (i : nat) (s : state) : state + ending :=
  if sStarted s then
    match sThreads s !! i with
    | Some (true :: l) => inl (mkState (sFirst s) (<[i := l]> (sThreads s)) (sOwn s) true (sRest s))
    | Some (false :: _) => inr Terminated
    | _ => inl s
    end
  else inl s.
(** A run under a schedule: [None] the caller, [Some i] thread [i]. For all files below. *)
Fixpoint run (s : state) (sched : list (option nat)) : ending :=
  match sched with
  | [] => Running
  | w :: sched' => match (match w with None => callerStep s | Some i => threadStep i s end) with inl s' => run s' sched' | inr e => e end
  end.
(** [sendInput] with these parts. For all files below. *)
Definition runParts (ps : list part) (sched : list (option nat)) : ending :=
  match ps with [] => Returned | p :: r => run (enter p r) sched end.

(** The parties. Files as in [parts]. *)
Inductive party := EcdhS | EcdhR | DktS | DktR | Grr18S | Grr18R | Rr17aS | Rr17aR | Rr17bS | Rr17bR | Rr16S | Rr16R | KkrtS | KkrtR | DcwS | DcwR.
(** The parts of [sendInput] with [T] channels. [first]: the checks of the inputs and sizes before threads are started; [chk k t]: the checks of thread (or of the caller's share) [t] in part [k].
    - EcdhPsiSender.cpp:142-151 (checks: 105-110) and 153-163 (no check: sends); EcdhPsiReceiver.cpp:161-170 (114-119), 226-234 (186-191);
    - DktMPsiSender.cpp:408-419, DktMPsiReceiver.cpp:534-549: share 0 runs on the caller;
    - Grr18MPsiSender.cpp:201-207, 250-602; Grr18MPsiReceiver.cpp:213-221, 263-675;
    - Rr17aMPsiSender.cpp:242-248, 280-601 (with the thread that permutes, 280-305); Rr17aMPsiReceiver.cpp:278-290, 328-641;
    - Rr17bMPsiSender.cpp:195-196, 229-488 (with the thread that permutes, 229-235); Rr17bMPsiReceiver.cpp:232-241, 277-527;
    - AknBfMPsiSender.cpp:86-122, 196-225 (the caller checks the permutation meanwhile, 210-222); AknBfMPsiReceiver.cpp:100-131, 405-421: share 0 runs on the caller;
    - KkrtPsiSender.cpp:340-341, 374-507: one thread for the corrections; KkrtPsiReceiver.cpp:115-245, DcwRBfPsiSender.cpp:149-195, DcwRBfPsiReceiver.cpp:172-230: no threads. *)
Definition parts (p : party) (T : nat) (first : list bool) (chk : nat -> nat -> list bool) : list part :=
  match p with
  | EcdhS => [mkPart [] (map (chk 0%nat) (seq 0 T)) []; mkPart [] (replicate T []) []]
  | EcdhR => [mkPart [] (map (chk 0%nat) (seq 0 T)) []; mkPart [] (map (chk 1%nat) (seq 0 T)) []]
  | DktS | DktR => [mkPart [] (map (chk 0%nat) (seq 1 (T - 1))) (chk 0 0)%nat]
  | Grr18S | Grr18R | Rr17aR | Rr17bR => [mkPart first (map (chk 0%nat) (seq 0 T)) []]
  | Rr17aS | Rr17bS => [mkPart first ([] :: map (chk 0%nat) (seq 0 T)) []]
  | Rr16S => [mkPart first (map (chk 0%nat) (seq 0 T)) (chk 0%nat T)]
  | Rr16R => [mkPart first (map (chk 0%nat) (seq 1 (T - 1))) (chk 0 0)%nat]
  | KkrtS => [mkPart first [chk 0 1]%nat (chk 0 0)%nat]
  | KkrtR | DcwS | DcwR => [mkPart first [] (chk 0 0)%nat]
  end.
