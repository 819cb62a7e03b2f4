(** Specification vocabulary for a second [init] of a simple index. *)
From Verif Require Import Base SimpleIndex_Model SimpleIndex_Spec.

(** A table of [rows] rows of [cols] cells. *)
Definition shaped (t : list (list N)) (rows cols : N) : Prop :=
  length t = N.to_nat rows /\ Forall (fun r => length r = N.to_nat cols) t.

(** The two indices hold the same entries in every bin. *)
Definition sameBins (s s' : SIndex) : Prop := forall b, binEntries s b = binEntries s' b.

(** Number of entries that bin [b] of an index has. *)
Definition sizeOf (s : SIndex) (b : nat) : nat := match siSizes s !! b with Some n => N.to_nat n | None => 0 end.
