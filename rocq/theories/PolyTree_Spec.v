(** Vocabulary of the statements about the polynomial tree. *)
From Verif Require Import Base PolyTree_Model.
From Coq Require Export Field_theory.

(** The operations are those of a field. *)
Definition isField (K : fops) : Prop :=
  field_theory (f0 K) (f1 K) (fadd K) (fmul K) (fsub K) (fopp K) (fun a b => fmul K a (finv K b)) (finv K) eq /\ forall a b, feqb K a b = true <-> a = b.
(** The value of a polynomial. *)
Fixpoint evalAt (K : fops) (p : list (fT K)) (x : fT K) : fT K := match p with [] => f0 K | a :: p' => fadd K a (fmul K x (evalAt K p' x)) end.
(** No leading zeros. *)
Definition normal (K : fops) (p : list (fT K)) : Prop := forall q a, p = q ++ [a] -> a <> f0 K.
(** The steps [ths] of threads, where the step at [v] writes [v] and reads [reads v]: no thread touches a node that another one writes. *)
Definition noRace (reads : nat -> list nat) (ths : list (list nat)) : Prop :=
  forall i j s t v w, i <> j -> ths !! i = Some s -> ths !! j = Some t -> v ∈ s -> w ∈ t -> v <> w /\ w ∉ reads v.
