(** Threads, channels and barriers of the multi-threaded protocols.

    The code calls cryptoTools ([Channel], [ThreadBarrier]) and the standard library ([std::promise], [std::thread]); both are
    outside of /repo, so this file states what is assumed about them (trusted base).
    - A channel carries messages in order in each direction. A send never waits. Each receive posted on a channel gets the next message
      of its direction; waiting for it ends when the message is there. A message of another size than the receive expects is an error.
    - A barrier of [n] threads (ThreadBarrier, or a counter and a promise set by the last thread, for example
      MPSI/Rr17/Rr17a/Rr17aMPsiReceiver.cpp:404-407) is an arrival followed by a wait for [n] arrivals. A promise is a barrier with one arrival. *)
From Verif Require Import Base.

(** [Chan c true]: channel [c] from the PSI sender to the PSI receiver, [Chan c false]: back. [Barrier p b]: barrier [b] of the sender ([p = true]) or
    the receiver. Used for the channels and barriers cited in
    Threads_Model.v, for example Rr17aMPsiReceiver.cpp:404-407, 429-464. *)
Inductive queue := Chan (c : nat) (fromS : bool) | Barrier (p : bool) (b : nat).
Global Instance queue_eq : EqDecision queue.
Proof. solve_decision. Defined.

(** Local actions whose order matters. For example Rr17aMPsiReceiver.cpp:399
    ([Inserted]), 541-542 ([Checked]), 597 ([LookedUp]). *)
Inductive act := Hashed | Inserted | Checked | MasksSent | LookedUp.
Global Instance act_eq : EqDecision act.
Proof. solve_decision. Defined.

(** [Snd q k]: a message of size [k] ([k = 0] for an arrival). [Get q j k]: wait for the receive that was posted as number [j] on [q] with size [k].
    [Wai q n]: wait for [n] arrivals. For example Rr17aMPsiReceiver.cpp:464
    ([Snd] on a channel), 589 ([Get]), 404-407 ([Snd] and [Wai] on a
    barrier). *)
Inductive ev := Snd (q : queue) (k : N) | Get (q : queue) (j : nat) (k : N) | Wai (q : queue) (n : nat) | Act (a : act).
Global Instance ev_eq : EqDecision ev.
Proof. solve_decision. Defined.

(** What each thread has still to do, and all sends so far. For the threads
    of Rr17aMPsiReceiver.cpp:330-641 and the other files cited in
    Threads_Model.v. *)
Record state := mkState { todo : list (list ev); sentLog : list (queue * N) }.
(** Before the first event, for example Rr17aMPsiReceiver.cpp:330. *)
Definition start (scripts : list (list ev)) : state := mkState scripts [].

(** Sizes of the messages sent on [q] so far, in order
    (Rr17aMPsiReceiver.cpp:464 and others). *)
Definition sentOn (q : queue) (l : list (queue * N)) : list N := omap (fun e => if decide (e.1 = q) then Some e.2 else None) l.
(** When the next event of a thread can happen (Rr17aMPsiReceiver.cpp:405,
    464, 589 and others). *)
Definition enabled (l : list (queue * N)) (e : ev) : Prop :=
  match e with
  | Snd _ _ | Act _ => True
  | Get q j k => sentOn q l !! j = Some k
  | Wai q n => (n <= length (sentOn q l))%nat
  end.
(** A send adds a message (Rr17aMPsiReceiver.cpp:464 and others). *)
Definition effect (e : ev) (l : list (queue * N)) : list (queue * N) := match e with Snd q k => l ++ [(q, k)] | _ => l end.

(** Any thread whose next event is enabled may go on. For the threads of
    Rr17aMPsiReceiver.cpp:330-641 and the other files cited in
    Threads_Model.v. *)
Inductive step : state -> nat * ev -> state -> Prop :=
  | step_at s i e rest : todo s !! i = Some (e :: rest) -> enabled (sentLog s) e ->
      step s (i, e) (mkState (<[i := rest]> (todo s)) (effect e (sentLog s))).
(** Sequences of steps with their trace, files as for [step]. *)
Inductive exec : state -> list (nat * ev) -> state -> Prop :=
  | exec_nil s : exec s [] s
  | exec_snoc s tr s' l s'' : exec s tr s' -> step s' l s'' -> exec s (tr ++ [l]) s''.

(** Building blocks: arrival and wait at a barrier of [T] threads. For
    example Rr17aMPsiReceiver.cpp:404-407. *)
Definition barrier (p : bool) (b T : nat) : list ev := [Snd (Barrier p b) 0; Wai (Barrier p b) T].
(** A list of messages sent on [q], and the receives of such a list posted
    from number [j] on. For example Rr17aMPsiSender.cpp:575-579. *)
Definition sends (q : queue) (ks : list N) : list ev := map (Snd q) ks.
(** For example Rr17aMPsiReceiver.cpp:581-589. *)
Definition gets (q : queue) (j : nat) (ks : list N) : list ev := imap (fun i k => Get q (j + i) k) ks.
