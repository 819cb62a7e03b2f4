(** Vocabulary of the statements about the masks of items outside the receiver's set in the Bloom-filter protocols. *)
From Verif Require Import Base.

(** The position occurs an odd number of times; the other occurrences cancel. *)
Definition oddIn (p : nat) (ps : list nat) : Prop := Nat.odd (count_occ Nat.eq_dec ps p) = true.
(** The item at each place of [U] has a position of its own: the receiver does not have the message there, and the items before it do not use it. *)
Definition freshPositions {A} (pos : A -> list nat) (known : nat -> Prop) (U : list A) (ps : list nat) : Prop :=
  length ps = length U /\
  forall i p y, ps !! i = Some p -> U !! i = Some y ->
    oddIn p (pos y) /\ ¬ known p /\ forall j y', (j < i)%nat -> U !! j = Some y' -> ¬ oddIn p (pos y').
(** Other values at the positions [ps]. *)
Definition putAt {A} (ps : list nat) (xs : list A) (l : list A) : list A := foldl (fun l e => <[e.1 := e.2]> l) l (zip ps xs).
(** Other messages of the OTs at the positions [ps]: the second message, or the one the bit [c] does not name. *)
Definition putSecond (ps : list nat) (xs : list N) (msgs : list (N * N)) : list (N * N) :=
  foldl (fun l e => alter (fun m : N * N => (m.1, e.2)) e.1 l) msgs (zip ps xs).
Definition putOther (choices : list bool) (ps : list nat) (xs : list N) (msgs : list (N * N)) : list (N * N) :=
  foldl (fun l e => alter (fun m : N * N => if default false (choices !! e.1) then (e.2, m.2) else (m.1, e.2)) e.1 l) msgs (zip ps xs).
(** The messages of the receiver. *)
Definition chosen (choices : list bool) (msgs : list (N * N)) : list N := zip_with (fun m (c : bool) => if c then m.2 else m.1) msgs choices.
Definition isBlock (v : N) : Prop := v < 2 ^ 128.
