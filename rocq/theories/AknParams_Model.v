(** Model of the parameters of RR16, libPSI/MPSI/Rr16/AknBfMPsiReceiver.cpp ("Receiver"): [computeMa], [computeTau], [computeMh], [computeMaxOnes], [compute] and
    the search of [computeAknBfParams].

    Simplifications: real numbers for [double], without rounding; the products of unsigned numbers within one formula do not wrap. *)
From Coq Require Import Reals.
From Verif Require Import Base Rr16_Model.

(** [n] as a [double]: the arguments of the functions
    AknBfMPsiReceiver.cpp:431-469. *)
Definition toR (n : N) : R := IZR (Z.of_N n).
(** Conversion of a [double] to [u64]: the fraction is cut off. Only numbers
    that are not negative are converted. AknBfMPsiReceiver.cpp:435, 441,
    453, 728-735. *)
Definition toU (x : R) : N := Z.to_N (Int_part x).

(** Receiver:431-436. *)
Definition computeMa (p : R) (t k : N) : N :=
  let t := toR t in let k := toR k in
  toU ((p * k + p * t + R_sqrt.sqrt (k * k * p * p + 2 * k * p * p * t)) / (p * p))%R.
(** Receiver:438-442. *)
Definition computeTau (mh : N) (p : R) (k : N) : N :=
  let mh := toR mh in let k := toR k in
  toU (p * mh + (k + R_sqrt.sqrt (k * k + 8 * k * p * mh)) / 2)%R.
(** Receiver:444-454. *)
Definition computeMh (minOnes : N) (p : R) (k : N) : N :=
  let minOnes := toR minOnes in let k := toR k in
  let dem := (R_sqrt.sqrt k * R_sqrt.sqrt (k + p * p + 2 * k * p + k - 8 * minOnes * p * p + 8 * minOnes * p) + k * p + k - 2 * minOnes * p + 2 * minOnes)%R in
  let num := (2 * (p * p - 2 * p + 1))%R in
  toU (dem / num)%R.
(** Receiver:456-459. *)
Definition computeMaxOnes (ma : N) (p : R) (k : N) : R := ((1 - p) * toR ma + R_sqrt.sqrt (2 * toR k * (p * toR ma)))%R.
(** Receiver:462-469, [compute]: the bound on the ones, [mh] and [tau]. *)
Definition compute (p : R) (kappa minOnes : N) : R * N * N :=
  let mh := computeMh minOnes p kappa in let tau := computeTau mh p kappa in let ma := computeMa p tau kappa in
  (computeMaxOnes ma p kappa, mh, tau).

(** What [computeAknBfParams] returns: OTs, ones, threshold for opened ones,
    probability of opening an OT, hash functions, bits of the filter. The
    reference arguments of AknBfMPsiReceiver.cpp:471-479. *)
Record aknParams := mkAkn { apOts : N; apOnes : N; apThr : N; apProb : R; apHashes : N; apBits : N }.

(** Receiver:690-703, the loop over [c] for a value of [h] and [p]; [nh] is [n * h]. [None]: out of fuel, as in the loops below. *)
Fixpoint cLoop (fuel : nat) (nh maxOnes : R) (h : N) (c sec : R) : option (R * R) :=
  if Rlt_dec sec 128 then
    if Rlt_dec c 120 then
      match fuel with
      | O => None
      | S fuel => let c := (c + / 1000)%R in let cPrime := (nh * c / maxOnes)%R in cLoop fuel nh maxOnes h c (ln (cPrime ^ N.to_nat h) / ln 2)%R
      end
    else Some (c, sec)
  else Some (c, sec).
(** The best choice so far, Receiver:673-675: total, p, c, h, mh, threshold; [None]: [pBest] is -1. *)
Definition choice : Type := R * R * R * N * N * N.
(** AknBfMPsiReceiver.cpp:673: [best], 10^28 - 1 at first. *)
Definition bestTotal (b : option choice) : R := match b with Some (total, _, _, _, _, _) => total | None => (10 ^ 28 - 1)%R end.
(** Receiver:680-720, the loop over [p]. *)
Fixpoint pLoop (fuel : nat) (n kappa h : N) (p : R) (best : option choice) : option (option choice) :=
  if Rlt_dec p (/ 10) then
    match fuel with
    | O => None
    | S fuel =>
        let minOnes := (n * h) mod two64 in
        let '(maxOnes, mh, threshold) := compute p kappa minOnes in
        '(c, sec) ← cLoop (2 ^ 17) (toR minOnes) maxOnes h (24 / 10) 0;
          let total := (toR minOnes * c / (1 - p))%R in
          let best := if Rlt_dec total (bestTotal best) then if Rle_dec 128 sec then Some (total, p, c, h, mh, threshold) else best else best in
          pLoop fuel n kappa h (p + / 1000)%R best
    end
  else Some best.
(** Receiver:677, 721, the loop over [h]. *)
Fixpoint hLoop (hs : list N) (n kappa : N) (best : option choice) : option (option choice) :=
  match hs with
  | [] => Some best
  | h :: hs => pLoop (2 ^ 7) n kappa h (/ 1000) best ≫= hLoop hs n kappa
  end.
(** Receiver:670-735: no entry of the table; [None] with the exception: nothing has been returned. *)
Definition searchParams (n kappa : N) : outcome (option aknParams) :=
    match hLoop (map N.of_nat (seq 80 20)) n kappa None with
    | None => OutOfFuel
    | Some None => Thrown None
    | Some (Some (_, p, c, h, mh, threshold)) =>
        let bits := toU (toR ((n * h) mod two64) * c)%R in
        Done (Some (mkAkn (computeMh bits p kappa) mh threshold p h bits))
    end.

(** The probabilities of the table, Receiver:483-664, in thousandths. *)
Definition aknProbs : list N := [99; 99; 99; 99; 99; 99; 99; 99; 98; 83; 69; 53; 44; 36; 29; 24; 19; 15; 13; 10; 8; 6; 5].
(** The table with its probabilities. The [if] cascade at the beginning of
    [computeAknBfParams], AknBfMPsiReceiver.cpp:480-666. *)
Definition aknTableR : list (N * aknParams) :=
  zip_with (fun '(n, (ots, ones, thr, h, bf)) q => (n, mkAkn ots ones thr (toR q / 1000)%R h bf)) aknTable aknProbs.
(** Receiver:471-736. *)
Definition computeAknBfParams (n kappa : N) : outcome (option aknParams) :=
  if kappa =? 40 then
    match list_find (fun e : N * aknParams => e.1 = n) aknTableR with
    | Some (_, (_, a)) => Done (Some a)
    | None => searchParams n kappa
    end
  else searchParams n kappa.
