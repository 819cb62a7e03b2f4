(** Vocabulary of the statements about PRTY. *)
From Verif Require Import Base Prty_Model Balanced_Model Balanced_Spec.

(** A row of four blocks with [F] bits. *)
Definition rowFits (F : nat) (r : list N) : Prop :=
  exists a b c d, r = [a; b; c; d] /\ a < 2 ^ 128 /\ b < 2 ^ 128 /\ c < 2 ^ 128 /\ d < 2 ^ (N.of_nat F - 384).
(** The polynomial through points (blocks) with distinct first components takes the given values. *)
Definition interpolates (P : prty) (F : nat) : Prop :=
  forall pts x r, NoDup (map fst pts) -> Forall (fun p => p.1 < 2 ^ 128 /\ rowFits F p.2) pts -> (x, r) ∈ pts -> interp P pts x = r.
(** Bit [i] of a row of blocks. *)
Definition rowBit (r : list N) (i : nat) : bool := N.testbit (nth (i / 128) r 0) (N.of_nat (i mod 128)).

(** The positions with hash number [h] whose mask agrees with [v] in the first [hb] bytes. *)
Definition hits (es : list entry) (hb : nat) (h v : N) : list nat :=
  map (fun e : entry => e.2.2) (filter (fun e : entry => e.1 = h /\ e.2.1 mod 2 ^ (8 * N.of_nat hb) = v mod 2 ^ (8 * N.of_nat hb)) es).
(** Masks with the same hash number differ in their first eight bytes. *)
Definition keysDistinct (es : list entry) : Prop :=
  NoDup (map (fun e : entry => (e.1, e.2.1 mod 2 ^ 64)) es).
Definition hashNumbers (es : list entry) : Prop := Forall (fun e => e.1 < 2) es.

(** The value under which an item is masked for hash number [h]. *)
Definition point (h x : N) : N := if h =? 0 then x else N.lxor x 1.
(** No two items differ exactly in the last bit. *)
Definition noNeighbours (R : list N) : Prop := forall x, x ∈ R -> N.lxor x 1 ∉ R.
(** The masks of the receiver's items differ in the first eight bytes. *)
Definition masksDistinct (P : prty) (F : nat) (R : list N) : Prop :=
  forall h h' x y, h < 2 -> h' < 2 -> x ∈ R -> y ∈ R -> recvMask P F (point h x) mod 2 ^ 64 = recvMask P F (point h' y) mod 2 ^ 64 -> x = y.

(** The mask of the sender's item [y] for hash number [h]: the bins and their polynomials are those of the receiver. *)
Definition senderMask (P : prty) (F : nat) (enc : N -> N) (R : list N) (bins : list (list bitem)) (h y : N) : N :=
  let b := N.to_nat (itemBin enc (binCount (N.of_nat (length R)) 40 1) y h) in
  sendMask P F (interp P (binPoints P F (binBlks R (nth b bins []))) (point h y)) (point h y).
(** No mask of a sender's item agrees in the first [hb] bytes with the mask of another receiver's item. *)
Definition noFalseMatch (P : prty) (F : nat) (enc : N -> N) (R : list N) (bins : list (list bitem)) (S : list N) (hb : nat) : Prop :=
  forall h x y, h < 2 -> x ∈ R -> y ∈ S ->
    senderMask P F enc R bins h y mod 2 ^ (8 * N.of_nat hb) = recvMask P F (point h x) mod 2 ^ (8 * N.of_nat hb) -> x = y.
(** Two-choice allocation fills no bin above 40. *)
Definition lightLoads (enc : N -> N) (R : list N) : Prop :=
  Forall (fun c => c <= 40) (greedyLoads enc (binCount (N.of_nat (length R)) 40 1) R).
