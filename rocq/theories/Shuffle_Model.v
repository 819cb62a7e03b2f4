(** Model of libPSI/Tools/RandomShuffle.cpp. The random generator (cryptoTools [PRNG]) and
    [std::shuffle] are arguments: [blk] draws a block, [fresh] seeds a new generator and
    [std] is [std::shuffle] on a range with a generator. *)
From Verif Require Import Base.

Section shuffle.
Context {G : Type} (blk : G -> N * G) (fresh : N -> G) (std : G -> list N -> list N * G).

(** RandomShuffle.cpp:11-14. *)
Definition shuffle (g : G) (l : list N) : list N * G := std g l.

(** RandomShuffle.cpp:70-77: byte [i] of the expanded block is 0 or 1; lane-wise
    arithmetic shift by [i / 16] and mask give bit [i / 16] of byte [i mod 16]. *)
Definition expandedBit (b : N) (i : nat) : bool :=
  N.testbit b (8 * (N.of_nat i mod 16) + N.of_nat i / 16).

(** [std::swap] of the elements at [low] and [mid], RandomShuffle.cpp:81; [None] = out of the array. *)
Definition swapPos (l : list N) (i j : nat) : option (list N) :=
  match l !! i, l !! j with
  | Some x, Some y => Some (<[j := x]> (<[i := y]> l))
  | _, _ => None
  end.

(** RandomShuffle.cpp:79-84: steps [i .. i + n - 1]. *)
Fixpoint mergeSteps (b : N) (i n : nat) (l : list N) (low mid : nat) : option (list N * nat * nat) :=
  match n with
  | O => Some (l, low, mid)
  | S n' =>
      if expandedBit b i then
        match swapPos l low mid with
        | None => None
        | Some l' => mergeSteps b (S i) n' l' (S low) (S mid)
        end
      else mergeSteps b (S i) n' l (S low) mid
  end.

(** RandomShuffle.cpp:65-85, [while (low != mid && mid != end)]. *)
Fixpoint mergeLoop (fuel : nat) (g : G) (l : list N) (low mid : nat) : outcome (list N * nat * G) :=
  if (low =? mid)%nat || (mid =? length l)%nat then Done (l, low, g)
  else match fuel with
       | O => OutOfFuel
       | S fuel' =>
           let '(b, g') := blk g in
           match mergeSteps b 0 (Nat.min 128 (Nat.min (mid - low) (length l - mid))) l low mid with
           | None => UB
           | Some (l', low', mid') => mergeLoop fuel' g' l' low' mid'
           end
       end.

(** RandomShuffle.cpp:29-96, [mergeShuffle] with the threshold [k] (2^20 in the source, line 33)
    as a parameter. The two halves are disjoint and have their own
    generators, so running them concurrently (line 55-61) is the same as one after the other. *)
Fixpoint mergeShuffle (k : N) (fuel : nat) (g : G) (l : list N) : outcome (list N * G) :=
  if N.of_nat (length l) <? k then Done (shuffle g l)
  else match fuel with
       | O => OutOfFuel
       | S fuel' =>
           let '(b, g0) := blk g in
           let m := (length l / 2)%nat in
           match mergeShuffle k fuel' (fresh b) (take m l), mergeShuffle k fuel' g0 (drop m l) with
           | Done (l1, _), Done (l2, g1) =>
               match mergeLoop (length l) g1 (l1 ++ l2) 0 m with
               | Done (l', low, g2) =>
                   let '(rest, g3) := shuffle g2 (drop low l') in Done (take low l' ++ rest, g3)
               | UB => UB
               | _ => OutOfFuel
               end
           | UB, _ | _, UB => UB
           | _, _ => OutOfFuel
           end
       end.

(** RandomShuffle.cpp:16-27, [parallelShuffle]: the slice from [start] to [end], both [n*t/nt]
    (sic), is merge shuffled in place. *)
Definition parallelShuffle (k : N) (l : list N) (t nt : N) : outcome (list N) :=
  if nt =? 0 then UB
  else
    let start := N.to_nat (N.of_nat (length l) * t / nt) in
    let fin := N.to_nat (N.of_nat (length l) * t / nt) in
    if (length l <? fin)%nat then UB
    else match mergeShuffle k (length l) (fresh t) (take (fin - start) (drop start l)) with
         | Done (s, _) => Done (take start l ++ s ++ drop fin l)
         | Thrown _ => UB
         | UB => UB
         | OutOfFuel => OutOfFuel
         end.
End shuffle.
