(** Vocabulary: what the receiver of KKRT recognises in the sender's masks. *)
From Verif Require Import Base Kkrt_Spec.

(** A mask that the receiver recognises: the OPRF value of one of its items in one of the bins of the item. *)
Definition recognises (F : N -> N -> N) (encS : N -> N) (nb ms : N) (R : list N) (m : N) : Prop :=
  exists x b, x ∈ R /\ candidate encS nb x b /\ m = F b x mod 256 ^ ms.
