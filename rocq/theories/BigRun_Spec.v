(** Vocabulary of the statements about complete runs with the big polynomial. *)
From Verif Require Import Base PolyTree_Model PolyTree_Spec PolyBig_Model PolyBig_Spec Prty_Model PrtyDiff_Model PrtyDiff_Spec BigRun_Model.
Local Open Scope nat_scope.

(** The slice works modulo [p], the points are smaller than [p], and there is a polynomial with as many coefficients as points, all smaller than [lim], through the
    values [ys]. *)
Definition sliceGood (s : slice) (p lim : N) (xs ys : list N) : Prop :=
  modular (sK s) (sRep s) (sOf s) p /\ Forall (fun x => (x < p)%N) xs /\ length (sOld1 s) = length xs - 1 /\ length (sOld2 s) = 2 * length xs - 1 /\
  exists q, normal (sK s) q /\ length q = length xs /\ Forall (fun a => (sRep s a < lim)%N) q /\ through (sK s) (sRep s) (sOf s) q xs ys.
(** The values of the receiver in slice [j]. *)
Definition valsOf (P : prty) (F j : nat) (xs : list N) : list N := map (fun x => sliceVal F j (bigRow P F x)) xs.
(** Orders and bytes. *)
Definition envOk (e : bigEnv) : Prop := (forall l, eIns e l ≡ₚ l) /\ (forall l, eSort e l ≡ₚ l) /\ forall t k i, (eMem e t k i < 256)%N.
(** Every message of the sender leaves at least one byte of its buffer, and neighbouring masks in it differ in [h] bytes. *)
Definition stepsFine (h b step T : nat) (ms : list N) : Prop :=
  forall t ss s c, t < T -> diffSteps step (length ms) T t = Some ss -> (s, c) ∈ ss ->
    b + h * c + b * escapes h (take (c + 1) (drop s ms)) < bufSize c h /\ distinctLow h (take (c + 1) (drop s ms)).
