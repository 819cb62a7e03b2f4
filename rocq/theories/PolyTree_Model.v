(** Model of the polynomial tree of PRTY, libPSI/PSI/Prty/Poly/polyFFT.cpp ("Fft"): multipoint evaluation and interpolation.

    The field [ZZ_p] is given by its operations. Of NTL the polynomial operations are modelled by the schoolbook algorithms; polynomials are lists of coefficients,
    lowest first, without leading zeros ([ZZ_pX] is normalised). The work of a thread is a list of node numbers; one step (the product or remainder at one node)
    is atomic, the steps of the threads are interleaved by a schedule. [UB]: an access out of range. [Thrown]: an error raised by NTL (which by default ends the program). *)
From Verif Require Import Base.

(** [ZZ_p], the numbers of polyFFT.cpp:47-634. *)
Record fops := mkFops { fT : Type; f0 : fT; f1 : fT; fadd : fT -> fT -> fT; fmul : fT -> fT -> fT; fsub : fT -> fT -> fT; fopp : fT -> fT; finv : fT -> fT; feqb : fT -> fT -> bool }.

Section model.
Context (K : fops).
(** [ZZ_pX], the polynomials of polyFFT.cpp:47-634. *)
Notation poly := (list (fT K)).

(** NTL: [ZZ_pX]. NTL removes leading zeros; used for every result in
    polyFFT.cpp:47-634. *)
Definition norm (p : poly) : poly := foldr (fun a q => match q with [] => if feqb K a (f0 K) then [] else [a] | _ :: _ => a :: q end) [] p.
(** [ZZ_pX::operator+] before normalisation, polyFFT.cpp:150-177. *)
Fixpoint padd (p q : poly) : poly :=
  match p, q with
  | [], _ => q
  | _, [] => p
  | a :: p', b :: q' => fadd K a b :: padd p' q'
  end.
(** Product with a number, part of [operator*], polyFFT.cpp:150-177. *)
Definition pscale (c : fT K) (p : poly) : poly := map (fmul K c) p.
(** [operator*] before normalisation, polyFFT.cpp:89, 142, 351. *)
Fixpoint pmul (p q : poly) : poly := match p with [] => [] | a :: p' => padd (pscale a q) (f0 K :: pmul p' q) end.
(** [operator+], polyFFT.cpp:150-177. *)
Definition addP (p q : poly) : poly := norm (padd p q).
(** [operator*], polyFFT.cpp:89, 142, 351. *)
Definition mulP (p q : poly) : poly := norm (pmul p q).
(** The leading coefficient, for the division in [FFTRem], polyFFT.cpp:192,
    318. *)
Definition lead (p : poly) : fT K := default (f0 K) (last p).
(** Long division: in each step the leading coefficient is removed. For
    [FFTRem], polyFFT.cpp:192, 318. *)
Fixpoint prem (fuel : nat) (a b : poly) : poly :=
  match fuel with
  | O => a
  | S f => if (length a <? length b)%nat then a
           else prem f (removelast (padd a (replicate (length a - length b) (f0 K) ++ pscale (fopp K (fmul K (lead a) (finv K (lead b)))) b))) b
  end.
(** NTL: [%]. [None]: division by zero. [FFTRem], polyFFT.cpp:192, 318. *)
Definition remP (a b : poly) : option poly := match norm b with [] => None | b' => Some (norm (prem (length a) a b')) end.
(** The field element of a number, for the derivative polyFFT.cpp:549. *)
Fixpoint fnat (n : nat) : fT K := match n with O => f0 K | S n' => fadd K (f1 K) (fnat n') end.
(** NTL: [diff], [coeff(p, 0)]. [diff], polyFFT.cpp:549. *)
Definition diffP (p : poly) : poly := norm (match p with [] => [] | _ :: p' => imap (fun i a => fmul K (fnat (S i)) a) p' end).
(** [coeff(p, 0)], polyFFT.cpp:228, 307. *)
Definition coeff0 (p : poly) : fT K := match p with [] => f0 K | a :: _ => a end.

(** Fft:15-17. In C++ [(0 - 1) / 2] is 0. *)
Definition LEFT (x : nat) : nat := 2 * x + 1.
(** polyFFT.cpp:16. *)
Definition RIGHT (x : nat) : nat := 2 * x + 2.
(** polyFFT.cpp:17. *)
Definition PAPA (x : nat) : nat := (x - 1) / 2.

(** Fft:95-130, [generateSubTreeArrays], one array: first element [r], limit [total]. [None]: the write to element 0 of an empty vector. *)
Fixpoint genLoop (fuel total : nat) (arr : list nat) : list nat :=
  match fuel with
  | O => arr
  | S f => let j := length arr in
           if (j <? total)%nat then
             let p := nth (PAPA j) arr 0%nat in let v := if (j mod 2 =? 1)%nat then LEFT p else RIGHT p in
             if (total <=? v)%nat then arr else genLoop f total (arr ++ [v])
           else arr
  end.
(** polyFFT.cpp:95-130: the array of one thread. *)
Definition genSub (total r : nat) : option (list nat) := if (total =? 0)%nat then None else Some (genLoop total total [r]).
(** polyFFT.cpp:95-130: the arrays of all threads. *)
Definition genSubs (T total first : nat) : option (list (list nat)) := mapM (fun i => genSub total (first + i)) (seq 0 T).

(** An interleaving of the steps of threads: the schedule names the thread
    of the next step; what it leaves over is executed thread by thread. For
    the threads started at polyFFT.cpp:66, 80, 270, 290, 465, 496. *)
Fixpoint interleave (sched : list nat) (ths : list (list nat)) : list nat :=
  match sched with
  | [] => concat ths
  | t :: sched' => match ths !! t with Some (v :: th) => v :: interleave sched' (<[t := th]> ths) | _ => interleave sched' ths end
  end.
(** Steps on an array. For the threads started at polyFFT.cpp:66, 80, 270,
    290, 465, 496. *)
Fixpoint runOps (step : list poly -> nat -> outcome (list poly)) (ops : list nat) (arr : list poly) : outcome (list poly) :=
  match ops with
  | [] => Done arr
  | v :: ops' => match step arr v with Done arr' => runOps step ops' arr' | Thrown _ => Thrown [] | UB => UB | OutOfFuel => OutOfFuel end
  end.
(** The phases of a level: each node of the level is the single step of a
    thread. For the loops that start threads at polyFFT.cpp:80, 270, 496. *)
Definition levelNodes (i : nat) : list nat := seq (2 ^ i - 1) (2 ^ i).
(** Level by level, the threads of a level are joined before the next one:
    polyFFT.cpp:80-85, 270-276, 496-501. *)
Fixpoint runLevels (step : list poly -> nat -> outcome (list poly)) (sch : nat -> list nat) (levels : list nat) (arr : list poly) : outcome (list poly) :=
  match levels with
  | [] => Done arr
  | i :: levels' => match runOps step (interleave (sch i) (map (fun j => [j]) (levelNodes i))) arr with
                    | Done arr' => runLevels step sch levels' arr'
                    | o => o
                    end
  end.

(** [tree[i] = tree[LEFT(i)] * tree[RIGHT(i)]]: Fft:89, 132-148, 345-353. *)
Definition mulNode (tree : list poly) (i : nat) : outcome (list poly) :=
  match tree !! LEFT i, tree !! RIGHT i, tree !! i with
  | Some l, Some r, Some _ => Done (<[i := mulP l r]> tree)
  | _, _, _ => UB
  end.
(** Fft:75, 491: [log2(numThreads) - 1] truncated, down to 1. *)
Definition upLevels (T : nat) : list nat := rev (seq 1 (Nat.log2 T - 1)).
(** Fft:47-91, [build_tree] for [degree + 1] points; the array [tree] is new. [sc], [sch]: the schedules. *)
Definition buildTree (sc : list nat) (sch : nat -> list nat) (T : nat) (pts : list (fT K)) : outcome (list poly) :=
  let n := length pts in
  let tree0 := replicate (n - 1) [] ++ map (fun x => [fopp K x; f1 K]) pts in
  match genSubs T (n - 1) (T - 1) with
  | None => UB
  | Some subs =>
      match runOps mulNode (interleave sc (map (@rev nat) subs)) tree0 with
      | Done tree1 => match runLevels mulNode sch (upLevels T) tree1 with Done tree2 => mulNode tree2 0 | o => o end
      | o => o
      end
  end.

(** [reminders[i] = reminders[PAPA(i)] % tree[i]]: Fft:179-198, 315-324. *)
Definition remNode (tree rem : list poly) (i : nat) : outcome (list poly) :=
  match rem !! PAPA i, tree !! i, rem !! i with
  | Some a, Some b, Some _ => match remP a b with Some r => Done (<[i := r]> rem) | None => Thrown [] end
  | _, _, _ => UB
  end.
(** Fft:265: [i] from 2 while [i < log2(numThreads)]. *)
Definition downLevels (T : nat) : list nat := seq 2 (Nat.log2_up T - 2).
(** Fft:233-313, [evaluate] at [n] points. [old]: the contents of the array [reminders] before. *)
Definition evaluate (sc : list nat) (sch : nat -> list nat) (T n : nat) (P : poly) (tree old : list poly) : outcome (list (fT K)) :=
  let size := (2 * n - 1)%nat in
  if (size <? 3)%nat then UB else
  match genSubs T size (T - 1) with
  | None => UB
  | Some subs =>
      match runLevels (remNode tree) sch (downLevels T) ([P; P; P] ++ drop 3 old) with
      | Done rem1 =>
          match runOps (remNode tree) (interleave sc subs) rem1 with
          | Done rem2 => Done (map coeff0 (drop (size / 2) rem2))
          | Thrown _ => Thrown [] | UB => UB | OutOfFuel => OutOfFuel
          end
      | Thrown _ => Thrown [] | UB => UB | OutOfFuel => OutOfFuel
      end
  end.
(** Fft:372-394, [multipoint_evaluate_zp]. *)
Definition multiEval (sc1 sc2 : list nat) (sch1 sch2 : nat -> list nat) (T : nat) (P : poly) (pts : list (fT K)) : outcome (list (fT K)) :=
  match buildTree sc1 sch1 T pts with
  | Done tree => evaluate sc2 sch2 T (length pts) P tree (replicate (2 * length pts - 1) [])
  | Thrown _ => Thrown [] | UB => UB | OutOfFuel => OutOfFuel
  end.

(** Fft:538-563, [prepareForInterpolate]: the tree and the values of the derivative. *)
Definition prepare (sc1 sc2 : list nat) (sch1 sch2 : nat -> list nat) (T : nat) (pts : list (fT K)) : outcome (list poly * list (fT K)) :=
  match buildTree sc1 sch1 T pts with
  | Done M =>
      match M !! 0%nat with
      | None => UB
      | Some m => match evaluate sc2 sch2 T (length pts) (diffP m) M (replicate (2 * length pts - 1) []) with
                  | Done a => Done (M, a)
                  | Thrown _ => Thrown ([], []) | UB => UB | OutOfFuel => OutOfFuel
                  end
      end
  | Thrown _ => Thrown ([], []) | UB => UB | OutOfFuel => OutOfFuel
  end.
(** [temp[i] = temp[LEFT(i)] * M[RIGHT(i)] + temp[RIGHT(i)] * M[LEFT(i)]]: Fft:150-177, 326-343. *)
Definition combine (temp M : list poly) (i : nat) : option poly :=
  match temp !! LEFT i, temp !! RIGHT i, M !! LEFT i, M !! RIGHT i with
  | Some tl, Some tr, Some ml, Some mr => Some (addP (mulP tl mr) (mulP tr ml))
  | _, _, _, _ => None
  end.
(** polyFFT.cpp:150-177, 326-343. *)
Definition interNode (M temp : list poly) (i : nat) : outcome (list poly) :=
  match combine temp M i, temp !! i with Some p, Some _ => Done (<[i := p]> temp) | _, _ => UB end.
(** Fft:447-451: the leaves, which are constants before. [Thrown]: the inverse of zero. *)
Fixpoint interLeaves (y a : list (fT K)) : outcome (list poly) :=
  match y, a with
  | [], _ => Done []
  | _ :: _, [] => UB
  | v :: y', c :: a' => if feqb K c (f0 K) then Thrown [] else match interLeaves y' a' with Done l => Done (norm [fmul K v (finv K c)] :: l) | o => o end
  end.
(** Fft:442-517, [iterative_interpolate_zp] for [degree + 1] values. [degree = 0]: the loop of Fft:447 does not end at 0. [old]: the other
    elements of the array [temp] before. *)
Definition interpolateWith (sc : list nat) (sch : nat -> list nat) (T : nat) (y a : list (fT K)) (M old : list poly) : outcome poly :=
  let n := length y in
  if (n <? 2)%nat then UB else
  match interLeaves y a with
  | Done lv =>
      match genSubs T (n - 1) (T - 1) with
      | None => UB
      | Some subs =>
          match runOps (interNode M) (interleave sc (map (@rev nat) subs)) (old ++ lv) with
          | Done temp1 =>
              match runLevels (interNode M) sch (upLevels T) temp1 with
              | Done temp2 => match combine temp2 M 0 with Some p => Done p | None => UB end
              | Thrown _ => Thrown [] | UB => UB | OutOfFuel => OutOfFuel
              end
          | Thrown _ => Thrown [] | UB => UB | OutOfFuel => OutOfFuel
          end
      end
  | Thrown _ => Thrown [] | UB => UB | OutOfFuel => OutOfFuel
  end.
(** Fft:520-536, [interpolate_zp]. *)
Definition interpolateZp (sc1 sc2 sc3 : list nat) (sch1 sch2 sch3 : nat -> list nat) (T : nat) (pts y : list (fT K)) : outcome poly :=
  match prepare sc1 sc2 sch1 sch2 T pts with
  | Done (M, a) => interpolateWith sc3 sch3 T y a M (replicate (length y - 1) [])
  | Thrown _ => Thrown [] | UB => UB | OutOfFuel => OutOfFuel
  end.
End model.
