(** What the property theorems on threads in phases say. *)
From Verif Require Import Base Sched_Model Phases_Model.

(** Something on a channel. *)
Definition onChannel (e : ev) : Prop := (exists c d k, e = Snd (Chan c d) k) \/ exists c d j k, e = Get (Chan c d) j k.
(** An event on a channel by a thread of phase [k] of a party that is listed first. *)
Definition inPhase (ws : list work) (k : nat) : nat * ev -> Prop := fun e => exists x w, e.1 = S x /\ ws !! x = Some w /\ phase w = k /\ onChannel e.2.
(** No execution of the scripts ends. *)
Definition neverEnds (scripts : list (list ev)) : Prop := forall tr s, exec (start scripts) tr s -> Forall (fun l => l = []) (todo s) -> False.
