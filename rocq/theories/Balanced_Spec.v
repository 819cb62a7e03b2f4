(** Vocabulary of the statements about the balanced allocation. *)
From Verif Require Import Base Balanced_Model.

(** The bin of item [x] under hash function 0 (the low half of the cipher text) and 1 (the high half), for [m] bins. *)
Definition itemBin (enc : N -> N) (m x h : N) : N := (enc x / 2 ^ (64 * h)) mod 2 ^ 64 mod m.
(** The number of bins. *)
Definition binCount (n maxBin dummies : N) : N := 1 + n / (maxBin - dummies).
(** The order in which a map is visited is some order of its keys. *)
Definition anyOrder (ord : nat -> list nat -> list nat) : Prop := forall b l, ord b l ≡ₚ l.
(** Every item index is in exactly one bin; a bin holds at most [maxBin]. *)
Definition allPlaced (n : nat) (out : list (list bitem)) : Prop := map snd (concat out) ≡ₚ seq 0 n.
(** There is an allocation of all items to one of their bins within the bound. *)
Definition allocation (enc : N -> N) (maxBin m : N) (items : list N) (f : nat -> N) : Prop :=
  (forall i x, items !! i = Some x -> exists h, h < 2 /\ f i = itemBin enc m x h) /\
  forall b, N.of_nat (length (filter (fun i => f i = b) (seq 0 (length items)))) <= maxBin.
(** Two-choice allocation: each item in turn goes to the less loaded of its bins, to the second one on a tie. *)
Definition greedyStep (enc : N -> N) (m : N) (loads : list N) (x : N) : list N :=
  let b1 := N.to_nat (itemBin enc m x 0) in let b2 := N.to_nat (itemBin enc m x 1) in
  let b := if nth b1 loads 0 <? nth b2 loads 0 then b1 else b2 in <[b := nth b loads 0 + 1]> loads.
Definition greedyLoads (enc : N -> N) (m : N) (items : list N) : list N := fold_left (greedyStep enc m) items (replicate (N.to_nat m) 0).
