(** Common vocabulary of the models: outcomes of C++ functions, 64-bit words,
    checked array access. *)
From stdpp Require Export list list_numbers numbers sorting.
From Coq Require Export NArith Lia ZifyBool ZifyNat ZifyN.
From Coq Require Export Permutation.

Global Open Scope N_scope.
Ltac Zify.zify_post_hook ::= Z.div_mod_to_equations.

(** Outcome of running a C++ function. [Thrown s]: an exception left the
    function and [s] is the state of the object at that point. [UB]: an
    out-of-bounds access, division by zero or read of uninitialised memory.
    [OutOfFuel]: the fuel given to the model of an unbounded loop was
    not enough (each use has a lemma saying this does not happen, or keeps it
    as a distinct outcome). *)
Inductive outcome (S : Type) : Type :=
| Done (s : S)
| Thrown (s : S)
| UB
| OutOfFuel.
Global Arguments Done {S} s.
Global Arguments Thrown {S} s.
Global Arguments UB {S}.
Global Arguments OutOfFuel {S}.

Definition obind {A B} (x : outcome A) (f : A -> outcome B) (onthrow : A -> B) : outcome B :=
  match x with
  | Done a => f a
  | Thrown a => Thrown (onthrow a)
  | UB => UB
  | OutOfFuel => OutOfFuel
  end.

(** Sequencing of statements that act on the same state. *)
Definition andThen {A} (x : outcome A) (f : A -> outcome A) : outcome A :=
  obind x f (fun a => a).

(** Value ranges of the unsigned C++ integer types. *)
Definition two64 : N := 2 ^ 64.
Definition u64max : N := 2 ^ 64 - 1.

(** Checked read of [v[i]] for a vector [v]; [None] = out of bounds. The
    comparison comes first so that the model can be computed for huge [i]. *)
Definition readN {A} (l : list A) (i : N) : option A :=
  if i <? N.of_nat (length l) then l !! N.to_nat i else None.

(** Checked write of [v[i] = x]. *)
Definition writeN {A} (l : list A) (i : N) (x : A) : option (list A) :=
  if i <? N.of_nat (length l) then Some (<[N.to_nat i := x]> l) else None.

Global Arguments N.add : simpl never.
Global Arguments N.sub : simpl never.
Global Arguments N.mul : simpl never.
Global Arguments N.div : simpl never.
Global Arguments N.modulo : simpl never.
Global Arguments N.pow : simpl never.
Global Arguments N.shiftl : simpl never.
Global Arguments N.shiftr : simpl never.
Global Arguments N.land : simpl never.
Global Arguments N.lor : simpl never.
Global Arguments N.lxor : simpl never.
Global Arguments N.of_nat : simpl never.
Global Arguments N.to_nat : simpl never.
Global Arguments N.eqb : simpl never.
Global Arguments N.ltb : simpl never.
Global Arguments N.leb : simpl never.
Global Arguments N.testbit : simpl never.

Lemma readN_Some {A} (l : list A) i x :
  readN l i = Some x <-> l !! N.to_nat i = Some x.
Proof.
  unfold readN. destruct (N.ltb_spec i (N.of_nat (length l))); [done|].
  split; [done|]. intros Hx. apply lookup_lt_Some in Hx. lia.
Qed.

Lemma writeN_Some {A} (l : list A) i x l' :
  writeN l i x = Some l' <-> (i < N.of_nat (length l) /\ l' = <[N.to_nat i := x]> l).
Proof.
  unfold writeN. destruct (N.ltb_spec i (N.of_nat (length l))); naive_solver lia.
Qed.

(** ** Permutations by counting *)

Definition ind {A} `{EqDecision A} (y x : A) : nat := if decide (y = x) then 1 else 0.
Lemma count_cons_ind {A} `{EqDecision A} (l : list A) y x :
  count_occ (decide_rel (=)) (y :: l) x = (ind y x + count_occ (decide_rel (=)) l x)%nat.
Proof.
  simpl. unfold ind. destruct (decide_rel _ _ _), (decide (y = x)); try congruence; lia.
Qed.
Lemma count_nil_ind {A} `{EqDecision A} (x : A) : count_occ (decide_rel (=)) [] x = 0%nat.
Proof. done. Qed.

(** Solves [Permutation l1 l2] over a type with decidable equality from
    the permutation hypotheses over the same type, when it follows by counting. *)
Ltac permN :=
  match goal with
  | |- @Permutation ?A _ _ =>
      apply (Permutation_count_occ (decide_rel (@eq A)));
      let x := fresh "x" in intro x;
      repeat match goal with
      | H : @Permutation A _ _ |- _ =>
          let H' := fresh "Hperm" in
          pose proof (proj1 (Permutation_count_occ (decide_rel (@eq A)) _ _) H x) as H'; clear H
      end;
      repeat rewrite ?count_occ_app, ?count_cons_ind, ?count_nil_ind in *;
      lia
  end.

Lemma NoDup_perm {A} (l1 l2 : list A) : Permutation l1 l2 -> NoDup l1 -> NoDup l2.
Proof. by intros ->. Qed.

Lemma NoDup_fst_inj {A B} (l : list (A * B)) a b1 b2 :
  NoDup l.*1 -> (a, b1) ∈ l -> (a, b2) ∈ l -> b1 = b2.
Proof.
  induction l as [|[x y] l IH]; intros ND H1 H2; [by apply elem_of_nil in H1|].
  rewrite fmap_cons in ND. apply NoDup_cons in ND as [Hn ND].
  apply elem_of_cons in H1 as [E1|H1]; apply elem_of_cons in H2 as [E2|H2].
  - congruence.
  - injection E1 as -> ->. exfalso. apply Hn. apply elem_of_list_fmap. by exists (x, b2).
  - injection E2 as -> ->. exfalso. apply Hn. apply elem_of_list_fmap. by exists (x, b1).
  - by apply IH.
Qed.

Lemma elem_of_concat {A} (ls : list (list A)) (x : A) :
  x ∈ concat ls <-> exists l, x ∈ l /\ l ∈ ls.
Proof.
  rewrite elem_of_list_In, in_concat. split; intros (l & H1 & H2); exists l;
    rewrite ?elem_of_list_In in *; done.
Qed.

Lemma NoDup_take {A} (l : list A) n : NoDup l -> NoDup (take n l).
Proof. rewrite <- (take_drop n l) at 1. by intros (? & _)%NoDup_app. Qed.
Lemma NoDup_drop {A} (l : list A) n : NoDup l -> NoDup (drop n l).
Proof. rewrite <- (take_drop n l) at 1. by intros (_ & _ & ?)%NoDup_app. Qed.
