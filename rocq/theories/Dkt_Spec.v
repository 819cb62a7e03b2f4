(** Vocabulary of the statements about DKT. *)
From Verif Require Import Base Ecdh_Model Dkt_Model.

(** The points are a module over the commutative ring of scalars. *)
Record dktLaws (D : dkt) : Prop := {
  paddC : forall a b, padd D a b = padd D b a;
  paddA : forall a b c, padd D a (padd D b c) = padd D (padd D a b) c;
  psubK : forall a b, padd D (psub D a b) b = a;
  paddK : forall a b, psub D (padd D a b) b = a;
  pmulDl : forall a b k, pmul D (padd D a b) k = padd D (pmul D a k) (pmul D b k);
  pmulDr : forall a k l, pmul D a (sadd D k l) = padd D (pmul D a k) (pmul D a l);
  pmulBr : forall a k l, pmul D a (ssub D k l) = psub D (pmul D a k) (pmul D a l);
  pmulA : forall a k l, pmul D (pmul D a k) l = pmul D a (smul D k l);
  smulC : forall k l, smul D k l = smul D l k;
  pmul0 : forall a b, padd D (pmul D a (szero D)) b = b }.

(** The scalars are a field: multiplication by a difference of two distinct scalars can be undone. *)
Definition primeOrder (D : dkt) : Prop :=
  forall k l, k <> l -> exists v, forall a, pmul D (pmul D a (ssub D k l)) v = a.

(** The last item of the thread that has position [i]. *)
Definition lastOfThread (T : nat) (R : list N) (i : nat) (z : N) : Prop :=
  exists t, (t < T)%nat /\ i ∈ idxRange (length R) T t /\
    exists j, last (idxRange (length R) T t) = Some j /\ R !! j = Some z.

(** The masks the honest receiver ends up with: the key of its thread's last item, the item's own point, the item. *)
Definition finalMask (D : dkt) (s : sendRnd D) (T : nat) (R : list N) (i : nat) (w : N) : Prop :=
  exists x z, R !! i = Some x /\ lastOfThread T R i z /\ w = maskOf D (pmul D (ptOf D z) (sRs s)) x.

(** No two receiver masks share their first eight bytes. *)
Definition keysDistinct (D : dkt) (s : sendRnd D) (T : nat) (R : list N) : Prop :=
  forall i j w w', finalMask D s T R i w -> finalMask D s T R j w' -> w mod two64 = w' mod two64 -> i = j.
(** The oracle has no collision between a receiver mask and a sender mask. *)
Definition roInjective (D : dkt) (s : sendRnd D) (R S : list N) : Prop :=
  forall x z y, x ∈ R -> z ∈ R -> y ∈ S ->
    maskOf D (pmul D (ptOf D z) (sRs s)) x = maskOf D (pmul D (ptOf D y) (sRs s)) y ->
    pmul D (ptOf D z) (sRs s) = pmul D (ptOf D y) (sRs s) /\ x = y.

(** The [k]-th entry of thread [t]. *)
Definition entryAt {A} (l : list (list A)) (t k : nat) : option A := match l !! t with Some q => q !! k | None => None end.
(** The sender's proof verifies for the challenge [c] with the response [phi]: the statement is that [Z] and all [Mps] are multiples of
    [gg] and of the points [Ms] by one scalar. *)
Definition accepts (D : dkt) (Ms As Mps : list (list (pt D))) (A Z : pt D) (c phi : sc D) : Prop :=
  padd D A (pmul D Z c) = pmul D (gg D) phi /\
  forall t k M a Mp, entryAt Ms t k = Some M -> entryAt As t k = Some a -> entryAt Mps t k = Some Mp -> padd D a (pmul D Mp c) = pmul D M phi.
Definition oneKey (D : dkt) (Ms Mps : list (list (pt D))) (Z : pt D) (w : sc D) : Prop :=
  Z = pmul D (gg D) w /\ forall t k M Mp, entryAt Ms t k = Some M -> entryAt Mps t k = Some Mp -> Mp = pmul D M w.
