(** Vocabulary of the statements about the challenges of DKT: what a party can choose after it knows the challenge. *)
From Verif Require Import Base Ecdh_Model Dkt_Model Dkt_Spec.

(** Multiplication by [v] undoes multiplication by [e]. *)
Definition undoes (D : dkt) (e v : sc D) : Prop := forall a, pmul D (pmul D a e) v = a.

(** The point a sender computes, from a commitment [a], a response [phi] and the inverse of the challenge, to pass the check for [P]. *)
Definition late (D : dkt) (v phi : sc D) (P a : pt D) : pt D := pmul D (psub D (pmul D P phi) a) v.
(** A transcript of such a sender: the commitments [A], [As], the response and the masks are arbitrary; [Z] and [Mps] come last. *)
Definition lateMsg (D : dkt) (Ms : list (list (pt D))) (A : pt D) (As : list (list (pt D))) (v phi : sc D) (Ts : list (list N)) : msgS D :=
  mkMsgS D A As (late D v phi (gg D) A) phi (zip_with (zip_with (late D v phi)) Ms As) Ts.

(** The point [N] a receiver computes from everything else of the item and of its proof. *)
Definition lateN (D : dkt) (X A : pt D) (v phi : sc D) (M B : pt D) (phi' : sc D) : pt D :=
  psub D (psub D X M)
    (pmul D (psub D (psub D (pmul D (gen D) phi) (pmul D (padd D (gg D) (gggS D)) phi')) (psub D A B)) v).
(** Its first message: points [M], commitments [B] and responses are arbitrary; the [N] come last. *)
Definition lateFirst (D : dkt) (X A : pt D) (v phi : sc D) (its : list (list (pt D * pt D * sc D))) : msg1 D :=
  mkMsg1 D X A (map (map (fun i => (i.1.1, lateN D X A v phi i.1.1 i.1.2 i.2, i.1.2))) its).
Definition lateSecond (D : dkt) (phi : sc D) (its : list (list (pt D * pt D * sc D))) : msg2 D :=
  mkMsg2 D phi (map (map (fun i => i.2)) its).

(** What is to be bound: the first point, the points of thread 0 and those of the other threads. The strings that are hashed. *)
Definition others {D : dkt} (threads : list (list (pt D))) : list (list (pt D + N)) := map (map inl) (tail threads).
Definition whole (D : dkt) (first : pt D) (threads : list (list (pt D))) : list (pt D + N) :=
  inl first :: map inl (default [] (head threads)) ++ map (fun u => inr (roE D u)) (others threads).
(** No collision between the strings hashed for two challenges, and none between the scalars drawn. *)
Definition noCollision (D : dkt) (f f' : pt D) (l l' : list (list (pt D))) : Prop :=
  (forall u u', u ∈ others l -> u' ∈ others l' -> roE D u = roE D u' -> u = u') /\
  (roE D (whole D f l) = roE D (whole D f' l') -> whole D f l = whole D f' l') /\
  (toSc D (roE D (whole D f l)) = toSc D (roE D (whole D f' l')) -> roE D (whole D f l) = roE D (whole D f' l')).
