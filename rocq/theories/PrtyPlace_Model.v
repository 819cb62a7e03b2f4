(** Model of the places of the masks in PRTY, libPSI/PSI/Prty/PrtySender.cpp ("Sender"), [output]: the counters [idxPermuteDone] and the arrays
    [globalHash] that all threads use. [outputBestComm] (Sender:390-405, 541-551) and [outputBigPoly] (Sender:760-772) have the same counters.

    Simplifications: a mask is one number, written in one step; memory is sequentially consistent. *)
From Verif Require Import Base Ecdh_Model Balanced_Model Prty_Model.

(** Sender:257-259 for one mask: [permute[hashIdx][idxPermuteDone[hashIdx]++]] reads the counter, writes it back increased, and then the mask is copied to its
    place. [permute] is the identity: the shuffle is commented out (Sender:88-93). *)
Inductive phase := Fetch | Bump (r : nat) | Put (r : nat).
(** A thread: its phase, and the masks (hash number, mask) still to be
    placed in the order of its bins. PrtySender.cpp:243-261. *)
Definition thread : Type := phase * list (N * N).
(** The shared variables: [idxPermuteDone], [globalHash]; the threads.
    PrtySender.cpp:79-94, 243-261. *)
Record pstate := mkPstate { psIdx : N -> nat; psGh : N -> list N; psThr : list thread }.
(** Changes entry [h] of an array, PrtySender.cpp:258. *)
Definition setAt {A} (f : N -> A) (h : N) (v : A) (h' : N) : A := if h' =? h then v else f h'.

(** One step of thread [t]. A place beyond the array is undefined behaviour.
    PrtySender.cpp:257-259. *)
Definition placeStep (s : pstate) (t : nat) : outcome pstate :=
  match psThr s !! t with
  | Some (ph, (h, m) :: l) =>
      match ph with
      | Fetch => Done (mkPstate (psIdx s) (psGh s) (<[t := (Bump (psIdx s h), (h, m) :: l)]> (psThr s)))
      | Bump r => Done (mkPstate (setAt (psIdx s) h (r + 1)%nat) (psGh s) (<[t := (Put r, (h, m) :: l)]> (psThr s)))
      | Put r => if (r <? length (psGh s h))%nat
                 then Done (mkPstate (psIdx s) (setAt (psGh s) h (<[r := m]> (psGh s h))) (<[t := (Fetch, l)]> (psThr s)))
                 else UB
      end
  | _ => Done s
  end.
(** A schedule of the threads of PrtySender.cpp:283-292. *)
Definition placeRun (sched : list nat) (s : pstate) : outcome pstate := foldl (fun o t => andThen o (fun s => placeStep s t)) (Done s) sched.
(** Sender:79-94: zeros; the masks of each thread. *)
Definition placeInit (n : nat) (work : list (list (N * N))) : pstate :=
  mkPstate (fun _ => 0%nat) (fun _ => replicate n 0) (map (pair Fetch) work).
(** All threads have been joined, Sender:291-292. *)
Definition placeDone (s : pstate) : Prop := forall t th, psThr s !! t = Some th -> th.2 = [].

(** Sender:104-110, 127-130, 212-259: the masks of the bins [bs] (hash number, mask). A bin holds, in the order of insertion, the items that have it under hash
    number 0 and under hash number 1 (SimpleIndex.cpp:124-end: the hash numbers of one item one after the other). *)
Definition binMasks (P : prty) (F : nat) (enc : N -> N) (m : N) (pol : nat -> N -> list N) (S : list N) (b : nat) : list (N * N) :=
  concat (map (fun x => let '(b1, b2) := binsOf enc m x in
    (if (b1 =? b)%nat then [(0, sendMask P F (pol b x) x)] else []) ++
    (if (b2 =? b)%nat then [(1, sendMask P F (pol b (N.lxor x 1)) (N.lxor x 1))] else [])) S).
(** The masks of thread [t] of [T]. PrtySender.cpp:128-275. *)
Definition threadWork (P : prty) (F : nat) (enc : N -> N) (m : N) (pol : nat -> N -> list N) (S : list N) (T t : nat) : list (N * N) :=
  concat (map (binMasks P F enc m pol S) (idxRange (N.to_nat m) T t)).
