(** Vocabulary of the statements about the places of the masks in PRTY. *)
From Verif Require Import Base Balanced_Model Prty_Model PrtyPlace_Model.

(** The masks with hash number [h] in a list of masks with hash numbers. *)
Definition masksOf (h : N) (l : list (N * N)) : list N := map snd (filter (fun e : N * N => e.1 = h) l).
(** No thread is interrupted between its read of a counter and its write of the increased counter. *)
Fixpoint atOnce (sched : list nat) (s : pstate) : Prop :=
  match sched with
  | [] => True
  | t :: rest =>
      match psThr s !! t, head rest with
      | Some (Fetch, _ :: _), Some t' => t' = t
      | _, _ => True
      end /\ match placeStep s t with Done s' => atOnce rest s' | _ => True end
  end.
(** The bin of an item under hash number [h]. *)
Definition itemBinH (enc : N -> N) (m : N) (h x : N) : nat := let '(b1, b2) := binsOf enc m x in if h =? 0 then b1 else b2.
(** What one thread has placed once it is done with the masks of the set [S], hash number [h]. *)
Definition placed (P : prty) (F : nat) (enc : N -> N) (m : N) (pol : nat -> N -> list N) (S : list N) (h : N) (a : list N) : Prop :=
  exists sched s, placeRun sched (placeInit (length S) [threadWork P F enc m pol S 1 0]) = Done s /\ placeDone s /\ psGh s h = a.
