(** Vocabulary of the statements about what the client of the PIR-PSI protocol learns about the server's table. *)
From Verif Require Import Base Bgi_Model Drrn_Model.

(** Exchange [a] and [b]. *)
Definition exchange (a b k : nat) : nat := if decide (k = a) then b else if decide (k = b) then a else k.
(** Which of an item's masks stands at place [j] after the exchanges of place 1 with place [sigma[1]], 2 with [sigma[2]] and so on. *)
Fixpoint arrangeFrom (n : nat) (sigma : list nat) (j : nat) : nat :=
  match sigma with [] => j | x :: l => exchange n x (arrangeFrom (S n) l j) end.
Definition arrange (sigma : list nat) (j : nat) : nat := arrangeFrom 1 (tail sigma) j.
(** The same choices with other shuffles [sigma]. *)
Definition withSigmas (c : dchoices) (sigmas : list (list nat)) : dchoices := mkChoices (cMask c) (cSeed c) (cPi1 c) sigmas (cOrder0 c) (cOrder1 c).
