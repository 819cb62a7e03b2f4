(** Vocabulary of the statements about the masks as differences. *)
From Verif Require Import Base Prty_Model PrtyDiff_Model File_Spec.
Local Open Scope nat_scope.

(** A difference of all ones in the low [h] bytes is replaced by zeros and the mask itself. *)
Definition escaped (h : nat) (prev m : N) : bool := (low h (subBlk m prev) =? 2 ^ (8 * N.of_nat h) - 1)%N.
(** The number of such differences. *)
Fixpoint escapes (h : nat) (ms : list N) : nat := match ms with m :: ((m' :: _) as ms') => (if escaped h m m' then 1 else 0) + escapes h ms' | _ => 0 end.
(** The bytes of the masks [ms] after [prev]. *)
Fixpoint tailBytes (h b : nat) (prev : N) (ms : list N) : list N :=
  match ms with
  | [] => []
  | m :: ms' => (if escaped h prev m then replicate h 0%N ++ bytesLE b m else bytesLE h (subBlk m prev)) ++ tailBytes h b m ms'
  end.
Definition streamBytes (h b : nat) (ms : list N) : list N := match ms with [] => [] | m :: ms' => bytesLE b m ++ tailBytes h b m ms' end.
(** Neighbours differ in their low [h] bytes. *)
Fixpoint distinctLow (h : nat) (ms : list N) : Prop := match ms with m :: ((m' :: _) as ms') => low h m <> low h m' /\ distinctLow h ms' | _ => True end.
(** The memory holds the buffer. *)
Definition holdsBuf (mem : nat -> N) (buf : list N) : Prop := (forall i, mem i < 256)%N /\ forall i x, buf !! i = Some x -> mem i = x.
(** The looked up value [v] stands for the mask [m]: they agree in the bytes that are compared, at least [h]. *)
Definition standsFor (h : nat) (v : N * nat) (m : N) : Prop := low v.2 v.1 = low v.2 m /\ h <= v.2.
