(** Vocabulary of the statements about the KKRT PSI. *)
From Verif Require Import Base CuckooIndex_Spec SimpleIndex_Spec Kkrt_Model.

(** Bin [b] is one of the three candidate bins of item [x] ([enc]: AES under the hashing seed). *)
Definition candidate (enc : N -> N) (nb x b : N) : Prop :=
  exists j, j < 3 /\ mapsTo nb (N.lxor (enc x) x) j b.

(** No false match: an OPRF value of a receiver item equals one of a sender item only if the items are equal. *)
Definition noFalseMatch (F : N -> N -> N) (enc : N -> N) (nb ms : N) (R S : list N) : Prop :=
  forall x y b b', x ∈ R -> y ∈ S -> candidate enc nb x b -> candidate enc nb y b' ->
    F b x mod 256 ^ ms = F b' y mod 256 ^ ms -> x = y.

(** The random bytes sent in place of a repeated candidate bin hit no OPRF value of a receiver item. *)
Definition junkHarmless (F : N -> N -> N) (enc : N -> N) (junk : nat -> nat -> N) (nb ms : N) (R : list N) : Prop :=
  forall i h x b, x ∈ R -> candidate enc nb x b -> junk i h mod 256 ^ ms ≠ F b x mod 256 ^ ms.

(** OPRF values of receiver items in different bins differ in their first eight bytes. *)
Definition keysDistinct (F : N -> N -> N) (enc : N -> N) (nb ms : N) (R : list N) : Prop :=
  forall x x' b b', x ∈ R -> x' ∈ R -> candidate enc nb x b -> candidate enc nb x' b' ->
    (F b x mod 256 ^ ms) mod 2 ^ 64 = (F b' x' mod 256 ^ ms) mod 2 ^ 64 -> b = b'.

(** [pm] is a permutation of the positions and [iv] its inverse. *)
Definition permutationOf (n : nat) (pm iv : list nat) : Prop :=
  pm ≡ₚ seq 0 n /\ length iv = n /\ forall k x, pm !! k = Some x <-> (k < n)%nat /\ iv !! x = Some k.

(** The mask of hash function [h] of the sender's item number [idx]. *)
Definition rightMask (F : N -> N -> N) (enc : N -> N) (junk : nat -> nat -> N) (nb ms : N) (S : list N)
    (idx h : nat) (m : N) : Prop :=
  exists x, S !! idx = Some x /\
    (repeats nb (N.lxor (enc x) x) (N.of_nat h) -> m = junk idx h mod 256 ^ ms) /\
    (~ repeats nb (N.lxor (enc x) x) (N.of_nat h) ->
       exists b, mapsTo nb (N.lxor (enc x) x) (N.of_nat h) b /\ m = F b x mod 256 ^ ms).

(** Messages a party has sent, messages a party has received, in order. *)
Definition sentBy (acts : list action) : list message :=
  omap (fun a => match a with Send m => Some m | Recv _ => None end) acts.
Definition receivedBy (acts : list action) : list message :=
  omap (fun a => match a with Recv m => Some m | Send _ => None end) acts.

(** OPRF values of different (bin, item) inputs differ, over the items of both parties. *)
Definition masksDistinct (F : N -> N -> N) (enc : N -> N) (nb ms : N) (items : list N) : Prop :=
  forall x x' b b', x ∈ items -> x' ∈ items -> candidate enc nb x b -> candidate enc nb x' b' ->
    F b x mod 256 ^ ms = F b' x' mod 256 ^ ms -> b = b' /\ x = x'.

(** Bytes in the mask messages of a list. *)
Definition bytesOf (l : list message) : N :=
  foldr (fun m t => match m with MaskMsg b => b | _ => 0 end + t) 0 l.
