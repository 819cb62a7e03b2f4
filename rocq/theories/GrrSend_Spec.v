(** The masks of the GRR18 sender, vocabulary. *)
From Verif Require Import Base.

(** Sum of a list. *)
Definition total (l : list nat) : nat := fold_right Nat.add 0%nat l.
(** The masks of a bin: one for each item and each announced item of the receiver. *)
Definition pairsOf (bins : list (nat * nat)) : nat := total (map (fun b => (b.1 * b.2)%nat) bins).
(** The announced number [n] of OTs covers every bin in which the sender has an item. *)
Definition covers (n : nat) (bins : list (nat * nat)) : Prop :=
  forall before items load after, bins = before ++ (items, load) :: after -> items <> 0%nat -> load <> 0%nat -> (total (map snd before) + load <= n)%nat.
