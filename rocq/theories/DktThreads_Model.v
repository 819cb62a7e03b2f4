(** Model of the exchange of pointers between the threads of DKT, libPSI/MPSI/DKT/DktMPsiReceiver.cpp and DktMPsiSender.cpp.

    Thread 0 runs [routine(0)] on the caller's stack, thread [t] runs [routine(t)]. Threads hand each other pointers to their local variables
    through promises. A thread that has no operation left has returned from [routine] and its local variables are gone.
    Simplifications: computation and channel operations are left out. A channel operation of the sender's thread 0 waits only for
    messages that the receiver sends without waiting for the sender's other threads. *)
From Verif Require Import Base.

(** Promises: one per thread or one for all threads (thread number 0), with
    a name. DktMPsiReceiver.cpp:54-75, DktMPsiSender.cpp:41-59. *)
Inductive pname := PchP | SigmaHashP | PchAllP | Sigma2PhiP | SigmaValsP | Sigma2HashP | Sigma2ValsP | InputHashP | MergedP.
(** A promise with the number of its thread, DktMPsiReceiver.cpp:54-75,
    DktMPsiSender.cpp:41-59. *)
Definition promise : Type := pname * nat.
Global Instance pname_eq : EqDecision pname.
Proof. solve_decision. Defined.

(** [set_value], [get], and a read through a pointer to a local variable of
    another thread. DktMPsiReceiver.cpp:238-265 and the lines at the threads
    below; DktMPsiSender.cpp:125-152, 286-304. *)
Inductive op := SetP (p : promise) | GetP (p : promise) | Use (thread : nat).
Global Instance op_eq : EqDecision op.
Proof. solve_decision. Defined.

(** Running threads: the operations left and the promises fulfilled. The
    threads of DktMPsiReceiver.cpp:88-532, DktMPsiSender.cpp:68-405. *)
Record tstate := mkT { tRem : list (list op); tSet : list promise }.

(** One operation of thread [a]. A thread that waits, or has returned, does
    nothing. [UB]: use of a variable after its end of life.
    DktMPsiReceiver.cpp:88-532, DktMPsiSender.cpp:68-405. *)
Definition tstep (a : nat) (st : tstate) : outcome tstate :=
  match tRem st !! a with
  | None | Some [] => Done st
  | Some (SetP p :: l) => Done (mkT (<[a := l]> (tRem st)) (p :: tSet st))
  | Some (GetP p :: l) => if bool_decide (p ∈ tSet st) then Done (mkT (<[a := l]> (tRem st)) (tSet st)) else Done st
  | Some (Use f :: l) =>
      match tRem st !! f with
      | Some (_ :: _) => Done (mkT (<[a := l]> (tRem st)) (tSet st))
      | _ => UB
      end
  end.
(** A schedule of the threads of DktMPsiReceiver.cpp:534-549,
    DktMPsiSender.cpp:408-419. *)
Fixpoint trun (sched : list nat) (st : tstate) : outcome tstate :=
  match sched with
  | [] => Done st
  | a :: sched' => match tstep a st with Done st' => trun sched' st' | x => x end
  end.

(** Sender, thread 0: :126-132 (reads the helpers' [pch]), :142, :250-255, :286. *)
Definition sendMain (T : nat) : list op :=
  concat (map (fun t => [GetP (PchP, t); Use t]) (seq 1 (T - 1))) ++ [SetP (PchAllP, 0)]%nat
    ++ map (fun t => GetP (SigmaHashP, t)) (seq 1 (T - 1)) ++ [SetP (Sigma2PhiP, 0)]%nat.
(** Sender, thread [t]: :146, :148-151, :298, :300-303. *)
Definition sendHelper (t : nat) : list op :=
  [SetP (PchP, t); GetP (PchAllP, 0); Use 0; SetP (SigmaHashP, t); GetP (Sigma2PhiP, 0); Use 0]%nat.
(** DktMPsiSender.cpp:408-419: the threads are started, number 0 is the
    calling thread. *)
Definition sendThreads (T : nat) : tstate := mkT (sendMain T :: map sendHelper (seq 1 (T - 1))) [].

(** Receiver, thread 0: :240-243, :249, :363-366, :377, :478-486 (reads the helpers' [hashVec]), :489. *)
Definition recvMain (T : nat) : list op :=
  map (fun t => GetP (SigmaHashP, t)) (seq 1 (T - 1)) ++ [SetP (SigmaValsP, 0)]%nat
    ++ map (fun t => GetP (Sigma2HashP, t)) (seq 1 (T - 1)) ++ [SetP (Sigma2ValsP, 0)]%nat
    ++ concat (map (fun t => [GetP (InputHashP, t); Use t]) (seq 1 (T - 1))) ++ [SetP (MergedP, 0)]%nat.
(** Receiver, thread [t]: :260, :262-264, :395, :397-400, :493, :494. *)
Definition recvHelper (t : nat) : list op :=
  [SetP (SigmaHashP, t); GetP (SigmaValsP, 0); Use 0; SetP (Sigma2HashP, t); GetP (Sigma2ValsP, 0); Use 0; SetP (InputHashP, t);
   GetP (MergedP, 0)]%nat.
(** DktMPsiReceiver.cpp:534-549: the threads are started, number 0 is the
    calling thread. *)
Definition recvThreads (T : nat) : tstate := mkT (recvMain T :: map recvHelper (seq 1 (T - 1))) [].
