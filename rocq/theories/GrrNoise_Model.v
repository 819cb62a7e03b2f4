(** The noise of GRR18: which table [computeLoads] uses, and the padding of the number of masks.
    libPSI/MPSI/Grr18/Grr18Common.cpp and Grr18MPsiSender.cpp.

    Simplification for the whole file: real numbers instead of [double]. *)
From Coq Require Import Reals.
From Verif Require Import Base Grr18_Model.
Local Open Scope N_scope.

(** The keys (mN, mM, mEps) of [lookups], Grr18Common.cpp:129-248, with mEps in thousandths. Simplification: the tables are left out. *)
Definition tableKeys : list (N * N * N) :=
  [(256, 32, 500); (256, 32, 1000); (256, 32, 2000); (256, 32, 4000); (256, 25, 500); (256, 25, 1000);
   (256, 25, 2000); (256, 25, 4000); (256, 21, 500); (256, 21, 1000); (256, 21, 2000); (256, 21, 4000);
   (256, 18, 500); (256, 18, 1000); (256, 18, 2000); (256, 18, 4000); (4096, 512, 500); (4096, 512, 1000);
   (4096, 512, 2000); (4096, 512, 4000); (4096, 409, 500); (4096, 409, 1000); (4096, 409, 2000); (4096, 409, 4000);
   (4096, 341, 500); (4096, 341, 1000); (4096, 341, 2000); (4096, 341, 4000); (4096, 292, 500); (4096, 292, 1000);
   (4096, 292, 2000); (4096, 292, 4000); (65536, 8192, 500); (65536, 8192, 1000); (65536, 8192, 2000); (65536, 8192, 4000);
   (65536, 6553, 500); (65536, 6553, 1000); (65536, 6553, 2000); (65536, 6553, 4000); (65536, 5461, 500); (65536, 5461, 1000);
   (65536, 5461, 2000); (65536, 5461, 4000); (65536, 4681, 500); (65536, 4681, 1000); (65536, 4681, 2000); (65536, 4681, 4000);
   (1048576, 131072, 500); (1048576, 131072, 1000); (1048576, 131072, 2000); (1048576, 131072, 4000); (1048576, 104857, 500); (1048576, 104857, 1000);
   (1048576, 104857, 2000); (1048576, 104857, 4000); (1048576, 87381, 500); (1048576, 87381, 1000); (1048576, 87381, 2000); (1048576, 87381, 4000);
   (1048576, 74898, 500); (1048576, 74898, 1000); (1048576, 74898, 2000); (1048576, 74898, 4000); (256, 32, 200); (256, 32, 100);
   (256, 32, 50); (256, 25, 200); (256, 25, 100); (256, 25, 50); (256, 21, 200); (256, 21, 100);
   (256, 21, 50); (256, 18, 200); (256, 18, 100); (256, 18, 50); (4096, 512, 200); (4096, 512, 100);
   (4096, 512, 50); (4096, 409, 200); (4096, 409, 100); (4096, 409, 50); (4096, 341, 200); (4096, 341, 100);
   (4096, 341, 50); (4096, 292, 200); (4096, 292, 100); (4096, 292, 50); (65536, 8192, 200); (65536, 8192, 100);
   (65536, 8192, 50); (65536, 6553, 200); (65536, 6553, 100); (65536, 6553, 50); (65536, 5461, 200); (65536, 5461, 100);
   (65536, 5461, 50); (65536, 4681, 200); (65536, 4681, 100); (65536, 4681, 50); (1048576, 131072, 200); (1048576, 131072, 100);
   (1048576, 131072, 50); (1048576, 104857, 200); (1048576, 104857, 100); (1048576, 104857, 50); (1048576, 87381, 200); (1048576, 87381, 100);
   (1048576, 87381, 50); (1048576, 74898, 200); (1048576, 74898, 100); (1048576, 74898, 50); (65536, 5461, 5); (1048576, 87381, 5);
   (65536, 5461, 10); (1048576, 87381, 10)].
(** Grr18Common.cpp:252-283: is there a table for [n] items, [m] bins and a privacy parameter of [eps] thousandths? *)
Definition hasTable (n m eps : N) : bool := existsb (fun k : N * N * N => (k.2 =? eps) && (k.1.1 =? n) && (k.1.2 =? m)) tableKeys.
(** The configuration without a table, Grr18Common.cpp:284-292: [Lookup non{ 1, 1, 0, 0,{ 0 } }], with the defaults of Grr18MPsiSender.h:31-33 and
    Grr18MPsiReceiver.h:28: neither buffer nor threshold nor one-sided noise. *)
Definition noTableCfg (maxLoad cap : N) : loadCfg := mkLoadCfg false (-1) false maxLoad cap 0 [0].
(** Grr18MPsiSender.h:32, Grr18MPsiReceiver.h:29: [mEpsBins = 0.9]. *)
Definition defaultEps : N := 900.

(** Grr18Common.cpp:63: [bufferSize], and the 0.9999 of line 75, for [m] bins. *)
Definition lapBuffer (eps : R) (m : N) : R := (- ln 2 * (1 - (40 + ln (IZR (Z.of_N m)) / ln 2)) / eps)%R.
(** Grr18Common.cpp:63, 75: what is added to a sample. *)
Definition lapOffset (eps : R) (m : N) : R := (lapBuffer eps m + 9999 / 10000)%R.

(** [computeBuffSize(ssp, eps, max)], Grr18MPsiSender.cpp:184-197. Round [k] has [x = -2^k]; [x] is an [int], so that round 32 overflows. *)
Fixpoint buffRounds (fuel k : nat) (ssp : N) (eps max : R) : outcome N :=
  match fuel with
  | O => OutOfFuel
  | S fuel' =>
      if (31 <? k)%nat then UB
      else if Rle_dec (1 / 2 * exp (- 2 ^ k / (max / eps)))%R (/ 2 ^ N.to_nat ssp)%R then Done (2 ^ N.of_nat k) else buffRounds fuel' (S k) ssp eps max
  end.
(** No round if [2^-ssp] is 1; [x / scale] is minus infinity if [max] is 0.
    Grr18MPsiSender.cpp:184-197. *)
Definition computeBuffSize (ssp : N) (eps max : R) : outcome N :=
  if ssp =? 0 then Done 1 else if Req_EM_T max 0 then Done 2 else buffRounds 32 1 ssp eps max.

(** Grr18MPsiSender.cpp:398-412: the number of masks of all bins; sizes of the sender's bins and the loads received. *)
Definition realMasks (sizes loads : list N) : N := fold_right N.add 0 (zip_with N.mul sizes loads).
(** Grr18MPsiSender.cpp:428-443: the announced number of masks, [v] the value of [buffer + lap] after its conversion; the conversion of a negative number is undefined.
    Simplification: no wrap at [2^64]. *)
Definition announcedMasks (sizes loads : list N) (v : Z) : outcome N := if (v <? 0)%Z then UB else Done (realMasks sizes loads + Z.to_N v).
(** SimpleHasher.cpp:64 with [binScaler = 4.0], the default of Grr18MPsiSender.h:46, 54. *)
Definition defaultBins (n : N) : N := N.max 1 (n / 4).
