(** Parameter selection of the cuckoo index, libPSI/Tools/CuckooIndex2.cpp:127-177.
    [double] arithmetic is replaced by exact rationals and [std::log2]/[std::pow] by
    the arguments [log2d] and [sec]. *)
From Coq Require Import QArith Qround.
From Verif Require Import Base.

(** Selected parameters: stash size, expansion factor [mBinScaler], hash
    functions, items. The members of [CuckooParam], CuckooIndex2.h:15-23. *)
Record Selected := mkSelected { sStash : N; sScale : Q; sHashes : N; sN : N }.

(** CuckooIndex2.h:20, [static_cast<u64>(mN * mBinScaler)] (truncation = floor for
    non-negative values). *)
Definition selNumBins (s : Selected) : N :=
  Z.to_N (Qfloor (inject_Z (Z.of_N (sN s)) * sScale s)).

(** CuckooIndex2.cpp:164-170: increase [e] until [sec e >= statSecParam]; [s] starts at 0.
    [None]: no answer within the fuel. *)
Fixpoint growE (sec : Z -> Q) (stat : Q) (fuel : nat) (e : Z) (s : Q) : option Z :=
  if Qle_bool stat s then Some e
  else match fuel with
       | O => None
       | S f => growE sec stat f (e + 1)%Z (sec (e + 1)%Z)
       end.

(** CuckooIndex2.cpp:127-177. [sec] is the security estimate of line 161 for the given
    [n] and stash size. [Thrown] = the final [throw]. *)
Definition selectParams (log2d : N -> Q) (sec : N -> N -> Z -> Q) (fuel : nat)
    (n stat stash hh : N) : outcome (option Selected) :=
  let h := if hh =? 0 then 3 else hh in
  if (stash =? 0) && (h =? 3) then
    let a := 240%Q in
    let b := (- log2d n - 256)%Q in
    let e := ((inject_Z (Z.of_N stat) - b) / a)%Q in
    Done (Some (mkSelected 0 e 3 n))
  else if h =? 2 then
    match growE (sec n stash) (inject_Z (Z.of_N stat)) fuel 1 0 with
    | None => OutOfFuel
    | Some e => Done (Some (mkSelected 0 (inject_Z e) 2 n))
    end
  else Thrown None.
