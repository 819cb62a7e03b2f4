(** Statements about receivers and the results they add to [mIntersection]. *)
From Verif Require Import Base.

(** The result [out] adds to [old] positions below [n] only, at most as many as masks were received, and each added position [p] has a received
    mask that is a mask of the item at [p]. *)
Definition earned (n : nat) (own : nat -> N -> Prop) (received old out : list N) : Prop :=
  exists new, out = old ++ new /\ (length new <= length received)%nat /\
    forall p, p ∈ new -> p < N.of_nat n /\ exists m, m ∈ received /\ own (N.to_nat p) m.
(** Some position is added twice. *)
Definition repeated (old out : list N) : Prop := exists new, out = old ++ new /\ ~ NoDup new.
(** The added positions come in increasing order, none twice. *)
Definition increasing (old out : list N) : Prop := exists new, out = old ++ new /\ forall i j a b, new !! i = Some a -> new !! j = Some b -> (i < j)%nat -> a < b.

(** ** The masks of an item *)

(** KKRT: an OPRF value of the item at position [p], in some bin, cut to [ms] bytes. *)
Definition kkrtOwn (F : N -> N -> N) (ms : N) (R : list N) (p : nat) (m : N) : Prop := exists x b, R !! p = Some x /\ m = F b x mod 256 ^ ms.
(** DCW: the sum of the receiver's OT messages at the filter positions of the item. *)
Definition dcwOwn (posOf : N -> list nat) (msgs : list N) (R : list N) (p : nat) (m : N) : Prop :=
  exists x, R !! p = Some x /\ m = foldr (fun q a => N.lxor (default 0 (msgs !! q)) a) 0 (posOf x).
(** RR16: the low 64 bits of the sum [sum x]. *)
Definition lowOwn (sum : N -> option N) (R : list N) (p : nat) (m : N) : Prop := exists x k, R !! p = Some x /\ sum x = Some k /\ m mod 2 ^ 64 = k mod 2 ^ 64.
(** RR17a: the sum of an encoding in an OT of the bin where the receiver chooses and one where the sender chooses, cut to [mask] bytes. *)
Definition rr17aOwn (encR encS : nat -> nat -> N -> N) (inp : N -> N) (bin : N -> nat) (pls : list (nat * nat * nat)) (cap : nat) (mask : N) (R : list N)
    (p : nat) (m : N) : Prop :=
  exists x t base s l, R !! p = Some x /\ (t, bin x, base) ∈ pls /\ (s < cap)%nat /\ (l < cap)%nat /\
    m = N.lxor (encR t (base + s)%nat (inp x)) (encS t (base + l)%nat (inp x)) mod 2 ^ (8 * mask).
(** DKT: the hash of the unblinded point [u] the sender returned for the item. *)
Definition dktOwn {A} (mps : list (list A)) (mask : nat -> nat -> A -> N -> N) (R : list N) (p : nat) (m : N) : Prop :=
  exists x t k u row, R !! p = Some x /\ mps !! t = Some row /\ row !! k = Some u /\ m = mask t k u x.

(** ** PIR-PSI: the server's reads *)

(** All of the client's positions lie in a table of [n] entries. *)
Definition insideTable (n : nat) (pi0 : list nat) : Prop := forall i, i ∈ pi0 -> (i < n)%nat.

(** ECDH: the mask received for the own item at [p] is the cut hash of one of the received points, multiplied by the own scalar ([hash]). *)
Definition ecdhOwn (hash : N -> N) (ms : N) (points : list N) (forItem : list (nat * N)) (p : nat) : Prop :=
  exists m y, (p, m) ∈ forItem /\ y ∈ points /\ m = hash y mod 2 ^ (8 * ms).
