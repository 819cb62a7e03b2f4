(** Model of the exchange of the big polynomial in PRTY, libPSI/PSI/Prty/PrtyReceiver.cpp ("Receiver") and PrtySender.cpp ("Sender"), the functions
    [outputBigPoly], from the rows to the values that the sender adds to its rows; one of the three slices.

    [K] is the ring of integers modulo the prime of the slice, with [rep] and [ofN] the conversions of NTL, and [lim] is 256 to the number of
    bytes of a slice. Numbers are not cut into bytes. *)
From Verif Require Import Base PolyTree_Model.
Local Open Scope nat_scope.

Section model.
Variable K : fops.
Variable rep : fT K -> N.
Variable ofN : N -> fT K.
Variable lim : N.

(** Receiver:756-761 and 802-807: [degree + 1] coefficients, whether the polynomial has them or not ([UB]: the array of coefficients is
    shorter); [BytesFromZZ] keeps the low bytes. *)
Definition sendCoeffs (n : nat) (p : list (fT K)) : outcome (list N) := if length p <? n then UB else Done (map (fun a => (rep a mod lim)%N) (take n p)).
(** Sender:856-862 and 903-909: [SetCoeff] keeps the polynomial without leading zeros. *)
Definition recvCoeffs (cs : list N) : list (fT K) := norm K (map ofN cs).
(** Receiver:735-754, 786-800: [T1] threads prepare and [T2] threads interpolate ([T1 = T2] in the first two slices, [T1 = 1] in the last one); the
    array [temp] holds [old]. *)
Definition recvSlice (sc1 sc2 sc3 : list nat) (sch1 sch2 sch3 : nat -> list nat) (T1 T2 : nat) (old : list (list (fT K))) (xs ys : list N) : outcome (list N) :=
  match prepare K sc1 sc2 sch1 sch2 T1 (map ofN xs) with
  | Done (M, a) =>
      match interpolateWith K sc3 sch3 T2 (map ofN ys) a M old with
      | Done p => sendCoeffs (length xs) p
      | Thrown _ => Thrown [] | UB => UB | OutOfFuel => OutOfFuel
      end
  | Thrown _ => Thrown [] | UB => UB | OutOfFuel => OutOfFuel
  end.
(** Sender:820-865, 878-912, 934 and 947: the tree is built for the number [n] of the receiver's items, over the sender's items [zs] ([UB]: there
    are fewer of them); the array of values has the sender's size and starts with zeros. [old]: the array [reminders]. *)
Definition sendSlice (sc1 sc2 : list nat) (sch1 sch2 : nat -> list nat) (T : nat) (n : nat) (old : list (list (fT K))) (zs cs : list N) : outcome (list N) :=
  if length zs <? n then UB else
  match buildTree K sc1 sch1 T (take n (map ofN zs)) with
  | Done tree =>
      match evaluate K sc2 sch2 T n (recvCoeffs cs) tree old with
      | Done vs => Done (map (fun v => (rep v mod lim)%N) (vs ++ replicate (length zs - n) (f0 K)))
      | Thrown _ => Thrown [] | UB => UB | OutOfFuel => OutOfFuel
      end
  | Thrown _ => Thrown [] | UB => UB | OutOfFuel => OutOfFuel
  end.
End model.
(** The schedules of one slice. One for each group of threads in [recvSlice]
    and [sendSlice]: PrtyReceiver.cpp:714-813, PrtySender.cpp:850-905. *)
Record scheds := mkScheds { s1 : list nat; s2 : list nat; s3 : list nat; s4 : list nat; s5 : list nat;
  l1 : nat -> list nat; l2 : nat -> list nat; l3 : nat -> list nat; l4 : nat -> list nat; l5 : nat -> list nat }.
(** The slice of the receiver with items [xs] and values [ys] and of the
    sender with items [zs]. PrtyReceiver.cpp:735-809,
    PrtySender.cpp:853-905. *)
Definition bigSlice (K : fops) (rep : fT K -> N) (ofN : N -> fT K) (lim : N) (s : scheds) (T1 T2 T3 : nat) (old1 old2 : list (list (fT K))) (xs ys zs : list N) : outcome (list N) :=
  match recvSlice K rep ofN lim (s1 s) (s2 s) (s3 s) (l1 s) (l2 s) (l3 s) T1 T2 old1 xs ys with
  | Done cs => sendSlice K rep ofN lim (s4 s) (s5 s) (l4 s) (l5 s) T3 (length xs) old2 zs cs
  | o => o
  end.
(** Defines:35-43, 69-90: the primes of the first two slices and of the last one. *)
Definition prime128 : N := 340282366920938463463374607431768211507.
(** PrtyDefines.h:69-90. *)
Definition primeLast (F : N) : N :=
  (if F - 256 =? 160 then 1461501637330902918203684832716283019655932542983
   else if F - 256 =? 164 then 23384026197294446691258957323460528314494920687733
   else if F - 256 =? 168 then 374144419156711147060143317175368453031918731001943
   else if F - 256 =? 172 then 5986310706507378352962293074805895248510699696029801
   else if F - 256 =? 176 then 95780971304118053647396689196894323976171195136475563
   else if F - 256 =? 180 then 1532495540865888858358347027150309183618739122183602191
   else if F - 256 =? 184 then 24519928653854221733733552434404946937899825954937634843
   else 392318858461667547739736838950479151006397215279002157113)%N.
(** Receiver:614-615, Sender:746-750: the bytes of the last slice. *)
Definition lastBytes (F : N) : N := ((F + 7) / 8 - 32)%N.
