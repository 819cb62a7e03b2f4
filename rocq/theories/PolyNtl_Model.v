(** Model of libPSI/PSI/Prty/Poly/polyNTL.cpp ("Ntl"): interpolation and evaluation over a field with 2^(8B) elements, and of its use in
    PrtyReceiver.cpp ("Receiver") and PrtySender.cpp ("Sender"), the function [output].

    The field [GF2E] is given by its operations [K], with [rep] the bits of an element as a number and [ofN] the element of a number. [B] is [mNumBytes], as set by
    [NtlPolyInit] (Ntl:12-19). NTL's polynomials are lists of coefficients as in PolyTree_Model.v; its algorithm for interpolation is modelled.
    An [std::array<block, 4>] is the list of its blocks, a block is a number below 2^128; a coefficient that is handed over is the number in its [B] bytes.
    NTL's random values are arbitrary functions. [Thrown]: an error raised by NTL (which by default ends the program). [UB]: bytes beyond a block or an array. *)
From Verif Require Import Base PolyTree_Model Prty_Model.
Local Open Scope nat_scope.

(** The bytes of an array of blocks as a number, and back. Read at
    polyNTL.cpp:21-29, written at polyNTL.cpp:31-34. *)
Definition wide (r : list N) : N := foldr (fun b acc => (b + 2 ^ 128 * acc)%N) 0%N r.
(** polyNTL.cpp:31-34: four blocks. *)
Definition blocksOf (v : N) : list N := map (fun j => ((v / 2 ^ (128 * N.of_nat j)) mod 2 ^ 128)%N) (seq 0 4).

Section model.
Context (K : fops) (rep : fT K -> N) (ofN : N -> fT K) (B : nat).
(** [NTL::GF2EX], for example polyNTL.cpp:143, 214. *)
Notation poly := (list (fT K)).

(** The first value that needs more than [B] bytes, polyNTL.cpp:21-34. *)
Definition lim : N := (2 ^ (8 * N.of_nat B))%N.
(** Ntl:21-29, [GF2EFromBlock], [GF2EFromBlocks]. (They also overwrite the member [mGf2x], which only [NtlPolyInit] reads.) *)
Definition fromBlocks (r : list N) : option (fT K) := if 16 * length r <? B then None else Some (ofN (wide r mod lim)%N).
(** Ntl:31-34, 142-148, 241-242: the first [B] bytes are written, the other ones kept. *)
Definition bytesOf (e : fT K) : N := (rep e mod lim)%N.
(** polyNTL.cpp:31-34. *)
Definition toBlocks (e : fT K) (old : list N) : list N := blocksOf (bytesOf e + lim * (wide old / lim))%N.

(** NTL: [eval], by Horner's rule. Used at polyNTL.cpp:168, 187, 205, 240. *)
Definition horner (p : poly) (x : fT K) : fT K := foldr (fun c acc => fadd K (fmul K acc x) c) (f0 K) p.
(** NTL: [interpolate(a, b)]; [prod] the product of the linear factors of
    the points so far, [res] the polynomial through them. [None]: the
    inverse of zero. Used at polyNTL.cpp:43, 70, 143. *)
Fixpoint newton (pts : list (fT K * fT K)) (prod res : poly) : option poly :=
  match pts with
  | [] => Some (norm K res)
  | (a, b) :: pts' =>
      let t := horner prod a in
      if feqb K t (f0 K) then None
      else newton pts' (pmul K prod [fopp K a; f1 K]) (padd K res (pscale K (fmul K (finv K t) (fsub K b (horner res a))) prod))
  end.
(** polyNTL.cpp:43, 70, 143: vectors of different lengths are an error. *)
Definition interpolate (xs ys : list (fT K)) : option poly := if length xs =? length ys then newton (zip xs ys) [f1 K] [] else None.
(** NTL: [BuildFromRoots]. Used at polyNTL.cpp:84. *)
Definition fromRoots (xs : list (fT K)) : poly := foldr (fun a p => pmul K p [fopp K a; f1 K]) [f1 K] xs.
(** NTL: [SetCoeff] for each coefficient. Used at polyNTL.cpp:164, 180, 200,
    221. *)
Definition setCoeffs (cs : list (fT K)) : poly := norm K cs.

(** Ntl:38-53, [getBlkCoefficients(vecX, vecY, coeffs)]. *)
Definition blkCoeffs (xs ys : list (fT K)) : outcome (list N) :=
  match interpolate xs ys with
  | None => Thrown []
  | Some p => if 16 <? B then (if length p =? 0 then Done [] else UB) else Done (map bytesOf p)
  end.
(** Ntl:55-103, [getBlkCoefficients(degree, setX, setY, coeffs)]; [rnd]: the coefficients of [dummy_polynomial]. [setX.size() - 1] is 2^64 - 1 for an empty set. *)
Definition blkCoeffsPad (rnd : nat -> fT K) (degree : nat) (setX setY : list N) : outcome (list N) :=
  if length setY <? length setX then UB
  else match mapM (fun x => fromBlocks [x]) setX, mapM (fun y => fromBlocks [y]) (take (length setX) setY) with
       | Some xs, Some ys =>
           match interpolate xs ys with
           | None => Thrown []
           | Some p =>
               let n := length setX in
               let p' := if (0 <? n) && (n <=? degree) then norm K (padd K p (pmul K (norm K (map rnd (seq 0 (degree - n + 1)))) (fromRoots xs))) else p in
               Done (map bytesOf p')
           end
       | _, _ => UB
       end.
(** Ntl:106-150, [getSuperBlksCoefficients]; [rnd]: the random points. *)
Definition padPoints (rnd : nat -> fT K * fT K) (degree n : nat) : list (fT K * fT K) := map rnd (seq 0 (S degree - n)).
(** The whole function, polyNTL.cpp:107-151. *)
Definition superCoeffs (rnd : nat -> fT K * fT K) (degree : nat) (setX : list N) (setY : list (list N)) : outcome (list N) :=
  if length setY <? length setX then UB
  else match mapM (fun x => fromBlocks [x; 0; 0; 0]%N) setX, mapM fromBlocks (take (length setX) setY) with
       | Some xs, Some ys =>
           let pad := padPoints rnd degree (length setX) in
           match interpolate (xs ++ map fst pad) (ys ++ map snd pad) with
           | None => Thrown []
           | Some p => Done (map bytesOf p)
           end
       | _, _ => UB
       end.

(** Ntl:155-187, [evalPolynomial], one point and several: the blocks written. [old]: the contents before ([setY.resize] fills up with zeros). *)
Definition evalBlks (coeffs setX old : list N) : outcome (list N) :=
  match mapM (fun c => fromBlocks [c]) coeffs, mapM (fun x => fromBlocks [x]) setX with
  | Some cs, Some xs => Done (imap (fun i x => (bytesOf (horner (setCoeffs cs) x) + lim * (default 0%N (old !! i) / lim))%N) xs)
  | _, _ => UB
  end.
(** Ntl:189-205, [evalPolynomial(coeffs, vecX, setY)]: as many values as [setY] has elements. [Thrown]: [vecX.at] out of range. *)
Definition evalVec (coeffs : list N) (vecX : list (fT K)) (old : list N) : outcome (list N) :=
  match mapM (fun c => fromBlocks [c]) coeffs with
  | Some cs =>
      if (16 <? B) && (0 <? length old) then UB
      else if length vecX <? length old then Thrown []
      else Done (imap (fun i x => (bytesOf (horner (setCoeffs cs) x) + lim * (default 0%N (old !! i) / lim))%N) (take (length old) vecX))
  | None => UB
  end.
(** Ntl:208-244, [evalSuperPolynomial]; the coefficients are arrays whose first [B] bytes are given and the other ones zero. *)
Definition evalSuper (coeffs setX : list N) (old : list (list N)) : outcome (list (list N)) :=
  match mapM (fun c => fromBlocks (blocksOf c)) coeffs, mapM (fun x => fromBlocks [x; 0; 0; 0]%N) setX with
  | Some cs, Some xs => Done (imap (fun i x => toBlocks (horner (setCoeffs cs) x) (default [0; 0; 0; 0]%N (old !! i))) xs)
  | _, _ => UB
  end.

(** Receiver:112-146, Sender:161, 216-226: one step of bins. The receiver has the points [setX] and rows [setY] of each bin; the sender evaluates at its
    items of each bin. [d]: the maximal size of a bin. *)
Fixpoint allCoeffs (rnd : nat -> nat -> fT K * fT K) (d k : nat) (bins : list (list N * list (list N))) : outcome (list (list N)) :=
  match bins with
  | [] => Done []
  | (setX, setY) :: bins' =>
      match superCoeffs (rnd k) (d - 1) setX setY with
      | Done cs => match allCoeffs rnd d (S k) bins' with Done css => Done (cs :: css) | o => o end
      | Thrown _ => Thrown []
      | UB => UB
      | OutOfFuel => OutOfFuel
      end
  end.
(** PrtySender.cpp:161, 216-226: all bins of the step. *)
Fixpoint allValues (css : list (list N)) (theirs : list (list N)) : outcome (list (list (list N))) :=
  match css, theirs with
  | cs :: css', zs :: theirs' =>
      match evalSuper cs zs [] with
      | Done vs => match allValues css' theirs' with Done vss => Done (vs :: vss) | o => o end
      | Thrown _ => Thrown []
      | UB => UB
      | OutOfFuel => OutOfFuel
      end
  | _, _ => Done []
  end.
(** PrtyReceiver.cpp:112-146, PrtySender.cpp:161, 216-226: one step at both
    parties. *)
Definition exchange (rnd : nat -> nat -> fT K * fT K) (d : nat) (bins : list (list N * list (list N))) (theirs : list (list N)) : outcome (list (list (list N))) :=
  match allCoeffs rnd d 0 bins with
  | Done css => match packStep d css with None => UB | Some buf => allValues (unpackStep d (length bins) buf) theirs end
  | Thrown _ => Thrown []
  | UB => UB
  | OutOfFuel => OutOfFuel
  end.

(** The interpolation and evaluation as the function [interp] of
    Prty_Model.v, for bins of up to 40 items. PrtyReceiver.cpp:112-146,
    PrtySender.cpp:216-226. *)
Definition ntlInterp (rnd : list (N * list N) -> nat -> fT K * fT K) (pts : list (N * list N)) (x : N) : list N :=
  match superCoeffs (rnd pts) 39 (map fst pts) (map snd pts) with
  | Done cs => match evalSuper cs [x] [] with Done [r] => r | _ => [] end
  | _ => []
  end.
End model.
