(** Vocabulary of the statement that the masks of the sender's items outside the receiver's set are unpredictable (PRTY).

    The row that the sender hashes for an item [x] differs from the row that the receiver can compute by the sender's secret choice bits, in the columns where the
    value of the polynomial is not the xor of the receiver's two rows. The number of these columns is the weight of [x]. Probabilities are
    numbers of cases: choice bits and cipher bits are lists of booleans that are all equally likely. *)
From Verif Require Import Base Prty_Model Prty_Spec.

(** All lists of [m] elements of [l]. *)
Fixpoint lists {A} (l : list A) (m : nat) : list (list A) :=
  match m with O => [[]] | S m => concat (map (fun a => map (cons a) (lists l m)) l) end.
Definition bits (m : nat) : list (list bool) := lists [false; true] m.
(** The sender's choice bits are [s]. *)
Definition withChoice (P : prty) (s : list bool) : prty := mkPrty (aesT P) (aesU P) (fun i => nth i s false) (henc P) (interp P).
(** The row that the sender hashes for [x] if the polynomial has the value [R]: Sender:145, 226, 243-249. *)
Definition sentRow (P : prty) (F : nat) (R : list N) (x : N) : list N :=
  truncRow F (zip_with N.lxor (prfRow (aesQ P) F x) (zip_with N.land R (map (choiceBlk P F) (seq 0 4)))).
(** Bit of column [i] of a cipher. *)
Definition colBit (aes : nat -> N -> N) (x : N) (i : nat) : bool := N.testbit (aes i x) (N.of_nat (i mod 128)).
(** Column [i] of the value of the polynomial is not the xor of the receiver's two rows. *)
Definition differs (P : prty) (R : list N) (x : N) (i : nat) : bool := xorb (xorb (colBit (aesT P) x i) (colBit (aesU P) x i)) (rowBit R i).
Definition weight (P : prty) (F : nat) (R : list N) (x : N) : nat := length (filter (fun i => differs P R x i = true) (seq 0 F)).

(** The second ciphers have the bits [us] at the items [ys]. *)
Definition withU (P : prty) (ys : list N) (us : list (list bool)) : prty :=
  mkPrty (aesT P) (fun i x => match list_find (eq x) ys with
                              | Some (k, _) => if nth i (nth k us []) false then 2 ^ N.of_nat (i mod 128) else 0
                              | None => aesU P i x
                              end) (choice P) (henc P) (interp P).
(** The receiver's polynomial for the bin with the points [blks] at [y]. *)
Definition polyAt (P : prty) (F : nat) (blks : list N) (y : N) : list N := interp P (binPoints P F blks) y.
(** Bits of the second ciphers for which some item of [ys] has weight below 128; [blks y] are the receiver's points of the bin of [y]. *)
Definition weakFamilies (P : prty) (F : nat) (blks : N -> list N) (ys : list N) : list (list (list bool)) :=
  filter (fun us => Exists (fun y => (weight (withU P ys us) F (polyAt (withU P ys us) F (blks y) y) y < 128)%nat) ys) (lists (bits F) (length ys)).
Definition sizeN {A} (l : list A) : N := N.of_nat (length l).
