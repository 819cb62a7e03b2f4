(** Vocabulary of the statements about what the receiver can read off the places of the sender's masks.

    To the receiver, masks of items that it does not hold look random; it recognises only masks of its own items. *)
From Verif Require Import Base.

(** Two messages that look alike to a receiver that recognises the entries with [known]: at each place the same entry, or two entries that mean
    nothing to it. *)
Definition looksAlike {A} (known : A -> Prop) (msg msg' : list A) : Prop := Forall2 (fun a b => a = b \/ (~ known a /\ ~ known b)) msg msg'.

(** [h] gives the positions [0 .. n-1] new names. *)
Definition relabels (n : nat) (h : nat -> nat) : Prop :=
  exists h', forall i, (i < n)%nat -> (h i < n)%nat /\ (h' i < n)%nat /\ h' (h i) = i /\ h (h' i) = i.
(** A permutation of the permutations of [0 .. n-1]: a uniform choice stays uniform. *)
Definition permutesPerms (n : nat) (f : list nat -> list nat) : Prop :=
  exists g, forall pm, pm ≡ₚ seq 0 n -> f pm ≡ₚ seq 0 n /\ g pm ≡ₚ seq 0 n /\ g (f pm) = pm /\ f (g pm) = pm.

(** Two sets of the sender that should look the same to a receiver with set [R]: same size, same common items. *)
Definition sameCommon (R S S' : list N) : Prop :=
  NoDup S /\ NoDup S' /\ length S = length S' /\ forall x, x ∈ R -> (x ∈ S <-> x ∈ S').

(** What an item of the sender means to a receiver with set [R]. *)
Definition mean (R : list N) (x : N) : option N := if decide (x ∈ R) then Some x else None.
(** The item of [R] that the receiver recognises at each place of a message of masks, if [mask] gives the masks of items. *)
Definition sightOf (mask : N -> N) (R msg : list N) : list (option N) := map (fun m => snd <$> list_find (fun x => mask x = m) R) msg.
(** No item of [S] has the mask of another item of [R]. *)
Definition noMix (mask : N -> N) (R S : list N) : Prop := forall x y, x ∈ R -> y ∈ S -> mask x = mask y -> x = y.
(** The items of [S] in the order [pm]. *)
Definition reorder (S : list N) (pm : list nat) : list N := omap (fun i => S !! i) pm.
