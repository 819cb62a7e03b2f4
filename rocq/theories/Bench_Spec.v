(** What is claimed of the benchmark drivers. *)
From Verif Require Import Base Sched_Model Bench_Model.

(** In every pass both parties have the same set. *)
Definition sameSets (b : bench) : Prop := forall (prng : N -> nat -> N) l, benchSets prng b true l = benchSets prng b false l.
(** No block comes twice from the generators with the seeds [s] and [s'] (for one seed: twice from that generator). *)
Definition noRepeat (prng : N -> nat -> N) : Prop := forall s s' i j, prng s i = prng s' j -> s = s' /\ i = j.
(** Items in both sets. *)
Definition common (l1 l2 : list N) : list N := filter (fun x => x ∈ l2) l1.
(** A chain of messages in which everything that is received has been sent before, in order: the parties hold [x] (to the second) and [y] (to the first) unread messages at
    the start, [x'] and [y'] at the end. *)
Inductive converse : list N -> list N -> list op -> list op -> list N -> list N -> Prop :=
  | c_nil x y : converse x y [] [] x y
  | c_tx1 x y k a b x' y' : converse (x ++ [k]) y a b x' y' -> converse x y (tx k :: a) b x' y'
  | c_rx1 x y k a b x' y' : converse x y a b x' y' -> converse x (k :: y) (rx k :: a) b x' y'
  | c_tx2 x y k a b x' y' : converse x (y ++ [k]) a b x' y' -> converse x y a (tx k :: b) x' y'
  | c_rx2 x y k a b x' y' : converse x y a b x' y' -> converse (k :: x) y a (rx k :: b) x' y'.
(** Each channel and direction is used by one thread. *)
Definition oneSender (scripts : list (list ev)) : Prop :=
  forall c d i j li lj k k', scripts !! i = Some li -> scripts !! j = Some lj -> Snd (Chan c d) k ∈ li -> Snd (Chan c d) k' ∈ lj -> i = j.
(** Receives are on channels, waits at barriers. *)
Definition channelGets (scripts : list (list ev)) : Prop := Forall (Forall (fun e => match e with Get (Barrier _ _) _ _ => False | _ => True end)) scripts.
Definition total (dir : bool) (l : list op) : N := foldr N.add 0 (map snd (List.filter (fun o : op => Bool.eqb o.1 dir) l)).
