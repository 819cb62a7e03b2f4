(** Vocabulary of the statements about what the receiver's messages in DKT reveal. *)
From Verif Require Import Base Ecdh_Model Dkt_Model Dkt_Spec DktForge_Spec.

(** Each point is the multiple of [g] by exactly one scalar, its logarithm. *)
Definition generates (D : dkt) (g : pt D) (log : pt D -> sc D) : Prop := forall p l, pmul D g l = p <-> l = log p.
(** The point [g] adds nothing. *)
Definition neutral (D : dkt) (g : pt D) : Prop := forall a k, padd D a (pmul D g k) = a.
(** The multiple of [g] that a response [phi] to the challenge adds to the commitment [A]; [v] undoes the challenge. *)
Definition opened (D : dkt) (v : sc D) (g A : pt D) (phi : sc D) : pt D := pmul D (psub D (pmul D g phi) A) v.
(** The sum of the points of a list of items. *)
Definition isSum (D : dkt) (xs : list N) (p : pt D) : Prop := exists x xs', xs = x :: xs' /\ p = foldl (padd D) (ptOf D x) (map (ptOf D) xs').
(** One component of all items of all threads. *)
Definition entries {A B} (f : A -> B) (l : list (list A)) : list (list B) := map (map f) l.
