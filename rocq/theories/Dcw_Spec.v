(** Vocabulary of the statements about the Bloom-filter protocol. *)
From Verif Require Import Base Dcw_Model.

(** XOR of the messages at the filter positions. *)
Definition xorAt (msgs : list N) (ps : list nat) : N := foldr (fun p a => N.lxor (default 0 (msgs !! p)) a) 0 ps.
(** Positions of receiver items that are in the sender's set, in the order of the sender's items. *)
Definition commonPositions (R S : list N) : list N :=
  omap (fun y => match list_find (fun x => x = y) R with Some (i, _) => Some (N.of_nat i) | None => None end) S.
(** The encoding of the receiver's item [x]. *)
Definition dcwEnc (aes : N -> N -> N) (prng : N -> nat -> N) (r : dcwReceiver) (x : N) : N :=
  xorAt (drMsgs r) (positions aes prng (drSeed r) (bfBits (drN r)) x).
