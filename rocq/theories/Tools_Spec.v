(** Vocabulary of the statements about concurrent bins, shuffles and work splitting. *)
From Verif Require Import Base.

(** Values of the pushes that go to bin [b]. *)
Definition valsTo (b : nat) (ps : list (N * N)) : list N :=
  omap (fun p => if decide (N.to_nat p.1 = b) then Some p.2 else None) ps.

(** The positions of a range, in order. *)
Definition positions (r : N * N) : list nat := seq (N.to_nat r.1) (N.to_nat r.2 - N.to_nat r.1).

(** The slice of thread [t]. *)
Definition slice (l : list N) (t nt : N) : list N :=
  take (N.to_nat (N.of_nat (length l) * (t + 1) / nt) - N.to_nat (N.of_nat (length l) * t / nt))
       (drop (N.to_nat (N.of_nat (length l) * t / nt)) l).

