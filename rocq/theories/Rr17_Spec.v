(** Vocabulary of the statements about the release of send buffers. *)
From Verif Require Import Base Rr17_Model.

Fixpoint queues (tr : list bufEvent) : nat :=
  match tr with [] => 0 | Queue :: tr' => S (queues tr') | Complete :: tr' => queues tr' end.
Fixpoint completes (tr : list bufEvent) : nat :=
  match tr with [] => 0 | Queue :: tr' => completes tr' | Complete :: tr' => S (completes tr') end.
(** Only queued chunks complete. *)
Definition validTrace (tr : list bufEvent) : Prop := forall k, (completes (take k tr) <= queues (take k tr))%nat.
