(** Specification for the OT input length. *)
From Verif Require Import Base.

(** All OT inputs of items of [b] bits have at most [w] bits. *)
Definition covers (b w : N) (input : N -> N) : Prop := forall x, x < 2 ^ b -> input x < 2 ^ w.

(** [l] lists different 128-bit numbers with property [Q]. *)
Definition blocksWith (Q : N -> Prop) (l : list N) : Prop := NoDup l /\ Forall (fun v => v < 2 ^ 128 /\ Q v) l.

(** [a / b] rounded up. *)
Definition ceilDiv (a b : N) : N := if a mod b =? 0 then a / b else a / b + 1.

(** Two blocks that the protocol takes for the same item: same bin and nothing to tell them apart in the OT. *)
Definition clash {A} (bin : N -> A) (input : N -> N) (u v : N) : Prop := bin v = bin u /\ input v = input u.
