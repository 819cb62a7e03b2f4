(** Specification vocabulary for simple hashing. *)
From Verif Require Import Base CuckooIndex_Spec SimpleIndex_Model.

(** A packed item read as (index, hash function, collision flag), arithmetically. *)
Definition decodeItem (w : N) : N * N * bool :=
  (w mod 2 ^ 56, (w / 2 ^ 56) mod 128, bool_decide (2 ^ 63 <= w)).

(** The occupied entries of bin [b]. *)
Definition binEntries (s : SIndex) (b : nat) : list (N * N * bool) :=
  match siSizes s !! b, siBins s !! b with
  | Some n, Some row => map decodeItem (take (N.to_nat n) row)
  | _, _ => []
  end.

(** The cell of the item-to-bin map. *)
Definition mapCell (s : SIndex) (i h : nat) : option N :=
  match siMap s !! i with Some r => r !! h | None => None end.

(** Hash function [h] of item [x] collides: an earlier one selects the same bin. *)
Definition repeats (nb hash h : N) : Prop :=
  exists h' b, h' < h /\ mapsTo nb hash h' b /\ mapsTo nb hash h b.

(** A bin of size [B] meets the security level: it holds all balls, or the estimate is high enough. *)
Definition meets (est : N -> N -> N -> QArith_base.Q) (numBins numBalls stat B : N) : Prop :=
  numBalls <= B \/ QArith_base.Qle (QArith_base.inject_Z (Z.of_N stat)) (est numBins numBalls B).

(** Number of (item, hash function) pairs that select bin [b]. *)
Definition binLoad (nb H : N) (hashes : list N) (b : N) : nat :=
  length (filter (fun p : N * N => ((p.1 / 2 ^ (16 * p.2)) mod 2 ^ 64) mod nb = b)
            (list_prod hashes (map N.of_nat (seq 0 (N.to_nat H))))).
