(** Vocabulary: the masks of an item and the messages of masks of ECDH, DCW, DKT and RR16. *)
From Verif Require Import Base.
From Verif Require Ecdh_Model Dcw_Model Dkt_Model Rr16_Model.

(** ECDH: the points that the sender's threads send, the value [xa] of [Ecdh_Model.ecdhRun]. *)
Definition ecdhSent {P} (smul : P -> N -> P) (pt : N -> P) (enc : P -> N) (roItem : nat -> N -> N) (T : nat) (a : N) (S : list N) : option (list (list N)) :=
  match mapM (fun t => Ecdh_Model.inputsAt S (Ecdh_Model.idxRange (length S) T t)) (seq 0 T) with
  | Some sin => Some (map (map (Ecdh_Model.sendPoint smul pt enc roItem a)) sin)
  | None => None
  end.
(** DCW, DKT and RR16: the mask of an item for the values of the run. *)
Definition dcwMask (aes : N -> N -> N) (prng : N -> nat -> N) (s : Dcw_Model.dcwSender) (corr : list bool) (x : N) : N :=
  default 0 (Dcw_Model.maskItem (Dcw_Model.dsMsgs s) corr (Dcw_Model.positions aes prng (Dcw_Model.dsSeed s) (Dcw_Model.bfBits (Dcw_Model.dsN s)) x) 0).
Definition dktMask (D : Dkt_Model.dkt) (s : Dkt_Model.sendRnd D) (x : N) : N :=
  Dkt_Model.maskOf D (Dkt_Model.pmul D (Dkt_Model.ptOf D x) (Dkt_Model.sRs s)) x.
Definition rr16Mask (aes ro : N -> N -> N) (seed : N) (m nh : nat) (msgs : list (N * N)) (perm : list N) (x : N) : N :=
  default 0 (Rr16_Model.sendMask msgs perm (Rr16_Model.filterPos aes ro seed (N.of_nat m) nh x) 0).
