(** How much the parties send in all, apart from the scripts. *)
From Verif Require Import Base Sched_Model Sched_Spec Init_Spec.

(** Sum of the sizes of all messages of one party ([true]: the PSI sender) on all channels. *)
Definition traffic (p : bool) (log : list (queue * N)) : N :=
  total (omap (fun e : queue * N => match e.1 with Chan _ d => if Bool.eqb d p then Some e.2 else None | Barrier _ _ => None end) log).
(** Every execution in which all threads have finished has this traffic of sender and receiver. *)
Definition sendsInAll (scripts : list (list ev)) (fromS fromR : N) : Prop :=
  forall tr s, exec (start scripts) tr s -> finished s -> traffic true (sentLog s) = fromS /\ traffic false (sentLog s) = fromR.
(** Sum over the threads. *)
Definition perThread (T : nat) (f : nat -> N) : N := total (map f (seq 0 T)).
(** Messages of one party in a conversation. *)
Definition said (p : bool) (m : list (bool * N)) : N := total (map snd (List.filter (fun e : bool * N => Bool.eqb e.1 p) m)).
