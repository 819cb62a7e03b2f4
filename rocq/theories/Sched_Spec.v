(** What the property theorems say about executions. *)
From Verif Require Import Base Sched_Model.

(** A receive meets a message of another size. *)
Definition wrongSize (s : state) : Prop :=
  exists i q j k m rest, todo s !! i = Some (Get q j k :: rest) /\ sentOn q (sentLog s) !! j = Some m /\ m <> k.
Definition finished (s : state) : Prop := Forall (fun l => l = []) (todo s).

(** However the threads are scheduled: no receive fails, no state is a deadlock, and no execution is longer than the scripts, so each one ends with all threads finished. *)
Definition completes (scripts : list (list ev)) : Prop :=
  forall tr s, exec (start scripts) tr s ->
    (length tr <= length (concat scripts))%nat /\ ~ wrongSize s /\ (finished s \/ exists l s', step s l s').
(** Some schedule leads to a state in which not all threads are finished and none can go on. *)
Definition deadlocks (scripts : list (list ev)) : Prop :=
  exists tr s, exec (start scripts) tr s /\ ~ finished s /\ ~ exists l s', step s l s'.
(** In every execution each event that satisfies [P] comes before each one that satisfies [Q]. *)
Definition always_before (scripts : list (list ev)) (P Q : nat * ev -> Prop) : Prop :=
  forall tr s i j e f, exec (start scripts) tr s -> tr !! i = Some e -> P e -> tr !! j = Some f -> Q f -> (i < j)%nat.

(** Scripts of the other party: they do not arrive at the barriers of party [p]. Everything else is up to them. *)
Definition peer (p : bool) (scripts : list (list ev)) : Prop := Forall (fun l => forall b k, Snd (Barrier p b) k ∉ l) scripts.
(** An event of one of [n] threads from [lo] on, of one of the first [T] threads. *)
Definition inThreads (lo n : nat) (E : ev -> Prop) : nat * ev -> Prop := fun e => (lo <= e.1 < lo + n)%nat /\ E e.2.
Definition among (T : nat) (E : ev -> Prop) : nat * ev -> Prop := fun e => (e.1 < T)%nat /\ E e.2.
Definition receives (e : ev) : Prop := exists q j k, e = Get q j k.
(** Something is received or an OT check is done; the first mask is about to be sent. *)
Definition isCheck (e : ev) : Prop := receives e \/ e = Act Checked.
Definition isMask (e : ev) : Prop := e = Act MasksSent.
(** A thread has put all its items in the shared table; it starts to look up in it. *)
Definition isInsert (e : ev) : Prop := e = Act Inserted.
Definition isLookup (e : ev) : Prop := e = Act LookedUp.
(** A thread has set all its filter bits. *)
Definition isHash (e : ev) : Prop := e = Act Hashed.
Definition isSend (q : queue) (e : ev) : Prop := exists k, e = Snd q k.
