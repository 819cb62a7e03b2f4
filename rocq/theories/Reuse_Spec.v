(** Specification vocabulary for receiver objects that are used again. *)
From Verif Require Import Base.

(** Each run on a new object ends with the given output. *)
Definition freshOuts (runs : list (list N -> outcome (list N))) (outs : list (list N)) : Prop :=
  Forall2 (fun run out => run [] = Done out) runs outs.
