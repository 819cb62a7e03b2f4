(** Statements about a message that is cut into records. *)
From Verif Require Import Base.
Local Open Scope nat_scope.

(** The message is exactly the sequence of [cnt] records of [sz] bytes. *)
Definition cutsAll (sz cnt : nat) (buf : list N) (recs : list (list N)) : Prop := concat recs = buf /\ length recs = cnt /\ Forall (fun r => length r = sz) recs.
(** The message begins with this sequence. *)
Definition cutsFront (sz cnt : nat) (buf : list N) (recs : list (list N)) : Prop := exists rest, buf = concat recs ++ rest /\ length recs = cnt /\ Forall (fun r => length r = sz) recs.
(** A reader that refuses messages of the wrong size and otherwise takes the message apart. *)
Definition checks {A} (sz cnt : nat) (parse : list N -> outcome (list A)) (flat : A -> list (list N)) : Prop :=
  forall buf, (length buf = cnt * sz -> exists l, parse buf = Done l /\ cutsAll sz cnt buf (concat (map flat l))) /\ (length buf ≠ cnt * sz -> parse buf = Thrown []).
(** A reader that does not look at the size: it stays inside exactly if the message is long enough. *)
Definition trusts {A} (sz cnt : nat) (parse : list N -> outcome (list A)) (flat : A -> list (list N)) : Prop :=
  forall buf, (cnt * sz <= length buf -> exists l, parse buf = Done l /\ cutsFront sz cnt buf (concat (map flat l))) /\ (length buf < cnt * sz -> parse buf = UB).
(** No message is read behind its end. *)
Definition staysInside {A} (parse : list N -> outcome A) : Prop := forall buf, parse buf ≠ UB.
