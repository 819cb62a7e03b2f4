(** Vocabulary of the statements that a receiver learns the common items and nothing else.

    All random numbers of a run are the values of one function [w] on a set of sources: the OPRF at each of its inputs, and the numbers a party draws.
    Renaming the sources turns independent random numbers with equal distributions into such numbers. So two runs whose views agree up to a renaming
    have the same distribution of views. *)
From Verif Require Import Base.

Definition renaming {A} (s : A -> A) : Prop := exists s', forall a, s' (s a) = a /\ s (s' a) = a.

(** Sources of KKRT: the OPRF of a bin at an item, and the number that the sender draws for the hash function [h] of its item number [i]. *)
Inductive source := Oprf (bin item : N) | Drawn (i h : nat).
Global Instance source_eq : EqDecision source.
Proof. solve_decision. Defined.
(** The OPRF and the drawn numbers of the random numbers [w]. *)
Definition oprfOf (w : source -> N) (bin item : N) : N := w (Oprf bin item).
Definition drawnOf (w : source -> N) (i h : nat) : N := w (Drawn i h).
