(** Vocabulary of the statements about the measurement of stash sizes. *)
From Verif Require Import Base Measure_Model.
Local Open Scope nat_scope.

(** The number of trials that ended with a stash of [s]. *)
Definition trialsWith (trials : list (list (option nat))) (s : nat) : nat := length (filter (fun x => x = Some s) (concat trials)).
(** Every trial has a value that is a column of the counters. *)
Definition fitsColumns (W : nat) (trials : list (list (option nat))) : Prop := forall x, x ∈ concat trials -> exists s, x = Some s /\ s < W.
(** The main thread has printed [acc]. *)
Definition prints (st : mstate) (acc : list nat) : Prop := phase st = Printed acc.
(** The number of trials with a stash of at most [s]. *)
Definition atMost (s : nat) (x : option nat) : bool := match x with Some k => k <=? s | None => false end.
Definition trialsUpTo (trials : list (list (option nat))) (s : nat) : nat := length (List.filter (atMost s) (concat trials)).
(** The trials are shared among [T] threads as [runOne] does it for [2 ^ t] trials. *)
Definition sharedAs (t T : N) (trials : list (list (option nat))) : Prop :=
  N.of_nat (length trials) = T /\ forall k l, trials !! k = Some l -> N.of_nat (length l) = shareOf (2 ^ t) T (N.of_nat k).
(** The run of [runOne] under a schedule. *)
Definition measure (t : N) (trials : list (list (option nat))) (tr : list (option nat)) : outcome mstate :=
  mrun width (length trials) (N.to_nat (2 ^ t)) (mstart width trials) tr.
