(** Vocabulary of the statements about the mask messages of DKT. *)
From Verif Require Import Base.
Local Open Scope nat_scope.

(** [msgs] are the messages up to the one that completes [need] masks. *)
Definition completes_at (need : nat) (msgs : list (list N)) : Prop :=
  need <= length (concat msgs) /\ forall a b, msgs = a ++ b -> b <> [] -> length (concat a) < need.
(** The positions [found] reports for the masks [l], in order. *)
Definition positionsOf (found : N -> option N) (l : list N) : list N := concat (map (fun x => match found x with Some i => [i] | None => [] end) l).
