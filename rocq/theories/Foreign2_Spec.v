(** Vocabulary of the statements about the receivers of RR17b and GRR18 on freely chosen messages. *)
From Verif Require Import Base.

(** The number with these bytes, the lowest first. *)
Definition little (l : list N) : N := foldr (fun b a => b + 256 * a) 0 l.

(** A message of [k] rows of [size] bytes, row by row. *)
Definition rowsOf (size k : nat) (m : list N) : list (list N) := map (fun j => take size (drop (j * size) m)) (seq 0 k).
(** RR17b: a row is a commitment of 20 bytes and [cap] slots of a tag of 4 and a value of 16 bytes. One of the [rows] has a slot with the tag of an encoding of the item at
    position [p], and value and key of the encoding open the commitment to the item. *)
Definition opened (enc : nat -> nat -> N -> N * N) (com : N -> N -> N) (inp : N -> N) (T cap : nat) (R : list N) (rows : list (list N)) (p : nat) : Prop :=
  exists x t s row k, R !! p = Some x /\ (t < T)%nat /\ row ∈ rows /\ (k < cap)%nat /\
    little (take 4 (drop (20 + 20 * k) row)) = (enc t s (inp x)).1 /\
    com x (N.lxor (enc t s (inp x)).2 (little (take 16 (drop (24 + 20 * k) row)))) = little (take 20 row).
(** GRR18: the mask is one of [masks x], cut to [bytes] bytes. *)
Definition listOwn (masks : N -> list N) (bytes : N) (R : list N) (p : nat) (m : N) : Prop :=
  exists x m', R !! p = Some x /\ m' ∈ masks x /\ m = m' mod 2 ^ (8 * bytes).
