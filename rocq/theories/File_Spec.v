(** Vocabulary of the statements about files. *)
From Verif Require Import Base.

(** Hexadecimal text of a 128-bit block, most significant digit first, lower case. *)
Definition hexDigit (d : N) : N := if d <? 10 then 48 + d else 87 + d.
Definition blockText (b : N) : list N := map (fun i => hexDigit ((b / 16 ^ N.of_nat (31 - i)) mod 16)) (seq 0 32).
(** Lower case of an ASCII letter. *)
Definition lower (c : N) : N := if (65 <=? c) && (c <=? 90) then c + 32 else c.

(** A file made of rows, each ended by a newline. *)
Definition unlines (rows : list (list N)) : list N := concat (map (fun r => r ++ [10]) rows).
(** The rows separated by newlines, no newline at the end. *)
Fixpoint joinLines (rows : list (list N)) : list N :=
  match rows with
  | [] => []
  | [r] => r
  | r :: rows' => r ++ 10 :: joinLines rows'
  end.
(** A file made of rows ended by carriage return and newline. *)
Definition unlinesCrLf (rows : list (list N)) : list N := concat (map (fun r => r ++ [13; 10]) rows).

(** Value of a string of decimal digits. *)
Definition parseDecimal (l : list N) : option N :=
  if bool_decide (l = []) then None
  else foldl (fun acc c => a ← acc; if (48 <=? c) && (c <=? 57) then Some (10 * a + (c - 48)) else None) (Some 0) l.

(** 16 bytes of a block and 8 bytes of a word, the lowest first. *)
Definition bytesLE (n : nat) (b : N) : list N := map (fun j => (b / 2 ^ (8 * N.of_nat j)) mod 256) (seq 0 n).
