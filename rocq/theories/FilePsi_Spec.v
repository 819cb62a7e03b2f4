(** Vocabulary of the statements about file-based PSI. *)
From Verif Require Import Base File_Model File_Spec.

(** A row that is taken as a number: exactly 32 hexadecimal digits. *)
Definition hexRow (r : list N) : Prop := length r = 32%nat /\ Forall (fun c => (48 <= c <= 57) \/ (65 <= c <= 70) \/ (97 <= c <= 102)) r.
(** Rows for the same item: the same text, or the same hexadecimal number in upper and lower case letters. *)
Definition sameRow (r r' : list N) : Prop := r = r' \/ (hexRow r /\ hexRow r' /\ map lower r = map lower r').
(** The random oracle has no collision among the rows that are not numbers, and hits no number among the rows. *)
Definition oracleGood (ro : list N -> N) (rows : list (list N)) : Prop :=
  forall r r', r ∈ rows -> r' ∈ rows -> ~ hexRow r ->
    (~ hexRow r' -> ro r = ro r' -> r = r') /\ (hexRow r' -> forall b, b < 2 ^ 128 -> blockText b = map lower r' -> ro r <> b).

(** The file [out] is the list [pos] of positions: decimal rows, or 8 bytes each. *)
Definition positionsFile (ft : fileType) (out : list N) (pos : list N) : Prop :=
  match ft with
  | Bin => out = concat (map (bytesLE 8) pos) /\ Forall (fun i => i < 2 ^ 64) pos
  | _ => exists rows, out = unlines rows /\ Forall (fun r => 10 ∉ r) rows /\ map parseDecimal rows = map Some pos
  end.

(** Command lines of a sender and a receiver that fit together, for sets of [n1] and [n2] items: roles, one network server, the sizes that were announced are right. *)
Definition partners (c1 c2 : command) (n1 n2 : nat) : Prop :=
  cRole c1 = Some 0%Z /\ cRole c2 = Some 1%Z /\
  (default 0%Z (cServer c1) = 0%Z <-> default 1%Z (cServer c2) <> 0%Z) /\
  (forall n, cSenderSize c1 = Some n \/ cSenderSize c2 = Some n -> n = N.of_nat n1) /\
  (forall n, cReceiverSize c1 = Some n \/ cReceiverSize c2 = Some n -> n = N.of_nat n2).

(** The random items a party with [n] items adds when the other one has [m]. *)
Definition pads (p : nat -> N) (n m : nat) : list N := map p (seq 0 (m - n)).

(** [pos]: the positions in [R] of the items of [S]. *)
Definition positionsOf (R S pos : list N) : Prop := forall i, i ∈ pos <-> exists x, R !! N.to_nat i = Some x /\ x ∈ S.
