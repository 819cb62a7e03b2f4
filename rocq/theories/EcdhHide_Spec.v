(** What the first messages of ECDH show: vocabulary. *)
From Verif Require Import Base.

(** Scalars satisfying [key] act on the points satisfying [good] as a group: products and inverses of scalars are scalars. *)
Definition keysAct {P : Type} (good : P -> Prop) (key : N -> Prop) (smul : P -> N -> P) : Prop :=
  (forall A k, good A -> key k -> good (smul A k)) /\
  (forall h k, key h -> key k -> exists m, key m /\ forall A, good A -> smul (smul A h) k = smul A m) /\
  (forall k, key k -> exists m, key m /\ forall A, good A -> smul (smul A k) m = A).
(** A group of prime order without its neutral element: exactly one scalar takes a point to another. *)
Definition oneKey {P : Type} (good : P -> Prop) (key : N -> Prop) (smul : P -> N -> P) : Prop :=
  forall A B, good A -> good B -> exists k, key k /\ smul A k = B /\ forall k', key k' -> smul A k' = B -> k' = k.
(** One scalar takes each point of [l'] to the point of [l] at the same place. *)
Definition sameRatios {P : Type} (key : N -> Prop) (smul : P -> N -> P) (l l' : list P) : Prop := exists h, key h /\ map (fun A => smul A h) l' = l.
