(** The noise of GRR18: properties C158 to C162. Real numbers stand for [double]; the samples are independent and have the distribution that the code
    asks for. *)
From Coq Require Import Reals Lra.
From Verif Require Import Base Grr18_Model GrrNoise_Model GrrNoise_Spec GrrNoise_Proofs2 GrrNoise_Proofs3 GrrNoise_Proofs4 GrrNoise_Proofs5.
Local Open Scope R_scope.

(** C158. Stated in full: an item more or less in a bin changes the probability of every set of announced loads by a factor of at most [exp eps].
    False in every mode, for every [eps] and every factor: a load that one size can have is impossible for the next. Tables: *)
Theorem C158_table_refuted eps c s t0 : 0 < eps -> cLap c = false -> cCw c = (-1)%Z -> cOneSided c = false -> (- 2 ^ 31 <= cStart c)%Z -> head (cTable c) = Some t0 ->
  (t0 mod 256 <= s)%N -> (s <= 255)%N ->
  exists E, 0 < loadsProb (lapCdf eps) 0 c [s] E /\ loadsProb (lapCdf eps) 0 c [(s + 1)%N] E = 0.
Proof. intros He H1 H2 H3 H4 H5 H6 H7. exists (justLoad s). by apply (table_separated eps 0 c s t0). Qed.
Print Assumptions C158_table_refuted.
(** Buffer: *)
Theorem C158_buffer_refuted eps m c s : 0 < eps -> cLap c = true -> (s <= cMax c)%N -> (s <= 255)%N -> (cMax c <= 255)%N ->
  exists E, 0 < loadsProb (lapCdf eps) (lapOffset eps m) c [s] E /\ loadsProb (lapCdf eps) (lapOffset eps m) c [(s + 1)%N] E = 0.
Proof. intros He H1 H2 H3 H4. exists (justLoad s). by apply lap_separated. Qed.
Print Assumptions C158_buffer_refuted.
(** One-sided noise: *)
Theorem C158_oneSided_refuted eps c s : 0 < eps -> cLap c = false -> cCw c = (-1)%Z -> cOneSided c = true -> (s < cBinCap c)%N -> (cBinCap c <= 255)%N ->
  exists E, 0 < loadsProb (expCdf eps) 0 c [s] E /\ loadsProb (expCdf eps) 0 c [(s + 1)%N] E = 0.
Proof. intros He H1 H2 H3 H4 H5. exists (justLoad s). by apply one_sided_separated. Qed.
Print Assumptions C158_oneSided_refuted.
(** Threshold, without noise: *)
Theorem C158_threshold_refuted c noise cw : cLap c = false -> cCw c = Z.of_N cw -> (cw < cMax c)%N -> (cMax c <= 255)%N ->
  computeLoads c noise [cw] = Done ([cw], cw) /\ computeLoads c noise [(cw + 1)%N] = Done ([cMax c], cMax c).
Proof. exact (cw_loads c noise cw). Qed.
Print Assumptions C158_threshold_refuted.
(** The first entries of the table for 256 items, 32 bins and [eps = 4], the buffer, the one-sided noise, a threshold. *)
Example C158_refuted_example :
  let c := mkLoadCfg false (-1) false 30 30 (-10) [8; 8; 8; 9; 12; 30]%N in
  (exists E, 0 < loadsProb (lapCdf 4) 0 c [8%N] E /\ loadsProb (lapCdf 4) 0 c [(8 + 1)%N] E = 0) /\
  (exists E, 0 < loadsProb (lapCdf 4) (lapOffset 4 32) (mkLoadCfg true (-1) false 30 30 0 [0%N]) [8%N] E /\
    loadsProb (lapCdf 4) (lapOffset 4 32) (mkLoadCfg true (-1) false 30 30 0 [0%N]) [(8 + 1)%N] E = 0) /\
  (exists E, 0 < loadsProb (expCdf 4) 0 (mkLoadCfg false (-1) true 30 30 0 [0%N]) [8%N] E /\ loadsProb (expCdf 4) 0 (mkLoadCfg false (-1) true 30 30 0 [0%N]) [(8 + 1)%N] E = 0) /\
  computeLoads (mkLoadCfg false 5 false 20 20 0 [0%N]) (fun _ => 0%Z) [5%N] = Done ([5%N], 5%N) /\ computeLoads (mkLoadCfg false 5 false 20 20 0 [0%N]) (fun _ => 0%Z) [6%N] = Done ([20%N], 20%N).
Proof.
  cbv zeta. split; [|split; [|split]].
  - exists (justLoad 8). apply (table_separated 4 0 _ 8 8); cbn; first [lra|lia|done].
  - exists (justLoad 8). apply lap_separated; cbn; first [lra|lia|done].
  - exists (justLoad 8). apply one_sided_separated; [lra|done|cbn; lia|cbn; lia].
  - split; vm_compute; reflexivity.
Qed.

(** What holds with tables or a buffer: the factor [exp eps] per item, up to the probability that the noise is so low that the load of an
    empty bin would be too small for the larger of the two sizes. *)
Theorem C158_twoSided_partial eps off c pre s s' post E : 0 < eps -> twoSided c ->
  loadsProb (lapCdf eps) off c (pre ++ s :: post) E <=
  exp (eps * Rabs (sizeR s - sizeR s')) * loadsProb (lapCdf eps) off c (pre ++ s' :: post) E + shortProb (lapCdf eps) off c s (N.max s s').
Proof. exact (two_sided_dp eps off c pre s s' post E). Qed.
Print Assumptions C158_twoSided_partial.
(** An item of one bin replaced by an item of another, with the buffer: *)
Theorem C158_buffer_partial eps m c pre s mid t post E : 0 < eps -> (1 <= m)%N -> cLap c = true -> (cMax c <= 255)%N -> (s + 1 <= cMax c)%N -> (t + 1 <= cMax c)%N ->
  loadsProb (lapCdf eps) (lapOffset eps m) c (pre ++ (s + 1)%N :: mid ++ t :: post) E <=
  exp (2 * eps) * loadsProb (lapCdf eps) (lapOffset eps m) c (pre ++ s :: mid ++ (t + 1)%N :: post) E + (1 + exp eps) * exp (eps / 10000) / (2 ^ 40 * sizeR m).
Proof. exact (buffer_dp eps m c pre s mid t post E). Qed.
Print Assumptions C158_buffer_partial.
(** One-sided noise: an item less changes the probability by a factor of at most [exp eps]; an item more adds at most [1 - exp (- eps)]. *)
Theorem C158_oneSided_partial eps c pre s post E : 0 < eps -> cLap c = false -> cCw c = (-1)%Z -> cOneSided c = true ->
  loadsProb (expCdf eps) 0 c (pre ++ (s + 1)%N :: post) E <= exp eps * loadsProb (expCdf eps) 0 c (pre ++ s :: post) E /\
  loadsProb (expCdf eps) 0 c (pre ++ s :: post) E <= loadsProb (expCdf eps) 0 c (pre ++ (s + 1)%N :: post) E + (1 - exp (- eps)).
Proof. intros He H1 H2 H3. split; [by apply one_sided_more|by apply one_sided_less]. Qed.
Print Assumptions C158_oneSided_partial.
Example C158_partial_example E :
  let c := mkLoadCfg true (-1) false 30 30 0 [0%N] in
  (loadsProb (lapCdf 1) (lapOffset 1 64) c [3; 5; 4; 1]%N E <= exp (2 * 1) * loadsProb (lapCdf 1) (lapOffset 1 64) c [3; 4; 4; 2]%N E + (1 + exp 1) * exp (1 / 10000) / (2 ^ 40 * sizeR 64)) /\
  loadsProb (expCdf 2) 0 (mkLoadCfg false (-1) true 30 30 0 [0%N]) [3; 5; 4; 1]%N E <= exp 2 * loadsProb (expCdf 2) 0 (mkLoadCfg false (-1) true 30 30 0 [0%N]) [3; 4; 4; 1]%N E.
Proof.
  cbv zeta. split.
  - apply (C158_buffer_partial 1 64 _ [3%N] 4 [4%N] 1 []); first [lra|lia|done|cbn; lia].
  - change [3; 5; 4; 1]%N with ([3%N] ++ (4 + 1)%N :: [4; 1]%N). change [3; 4; 4; 1]%N with ([3%N] ++ 4%N :: [4; 1]%N).
    refine (proj1 (C158_oneSided_partial 2 _ [3%N] 4 [4; 1]%N E _ _ _ _)); first [lra|done].
Qed.

(** C159. Stated in full: with the default parameters the announced loads are padded. False: there is no table for the default privacy parameter, nor for the
    default number of bins, and without a table the loads announced are the exact sizes of the bins, whatever the noise. *)
Theorem C159_default_refuted :
  (forall n m, hasTable n m defaultEps = false) /\ (forall n eps, hasTable n (defaultBins n) eps = false) /\
  forall mx cap noise sizes, Forall (fun s => s <= 255)%N sizes -> (forall i s, sizes !! i = Some s -> - 2 ^ 31 <= Z.of_N s + noise i < 2 ^ 31)%Z ->
    exists tot, computeLoads (noTableCfg mx cap) noise sizes = Done (sizes, tot).
Proof. split; [exact no_default_eps|]. split; [exact no_default_bins|exact no_table_loads]. Qed.
Print Assumptions C159_default_refuted.
(** Nor is there a table for other numbers of items than these. *)
Theorem C159_sizes_refuted n m eps : hasTable n m eps = true -> n ∈ [256; 4096; 65536; 1048576]%N.
Proof. exact (table_sizes n m eps). Qed.
Print Assumptions C159_sizes_refuted.
Example C159_example : hasTable 4096 512 1000 = true /\ hasTable 4096 1024 1000 = false /\ hasTable 4096 512 900 = false /\ defaultBins 4096 = 1024%N /\
  computeLoads (noTableCfg 30 30) (fun i => 5 - Z.of_nat i)%Z [3; 0; 7; 18]%N = Done ([3; 0; 7; 18]%N, 28%N).
Proof. repeat split; vm_compute; reflexivity. Qed.

(** C160: with the buffer, [computeLoads] returns loads except with probability about [2^-40]. *)
Theorem C160_succeeds eps m c sizes : 0 < eps -> (1 <= m)%N -> cLap c = true -> (cMax c <= 255)%N -> Forall (fun s => s <= cMax c)%N sizes -> (N.of_nat (length sizes) <= m)%N ->
  1 - / 2 ^ 40 - sizeR m * exp (- (eps * (2 ^ 64 - 255 - lapOffset eps m))) / 2 <= loadsProb (lapCdf eps) (lapOffset eps m) c sizes (fun _ => true).
Proof. exact (buffer_success eps m c sizes). Qed.
Print Assumptions C160_succeeds.
Example C160_example : 1 - / 2 ^ 40 - sizeR 4 * exp (- (1 / 2 * (2 ^ 64 - 255 - lapOffset (1 / 2) 4))) / 2 <=
  loadsProb (lapCdf (1 / 2)) (lapOffset (1 / 2) 4) (mkLoadCfg true (-1) false 30 30 0 [0%N]) [3; 0; 7; 18]%N (fun _ => true).
Proof. apply C160_succeeds; [lra|lia|done|cbn; lia| |cbn; lia]. repeat constructor; cbn; lia. Qed.

(** C161: an item of one bin replaced by an item of another changes the probability of every set of announced numbers of masks by a factor of at most
    [exp eps], up to about [2^-40]. [M]: the largest load received. *)
Theorem C161_masks eps M b pre s mid t post loads E : 0 < eps -> (1 <= M <= 255)%N -> Forall (fun l => l <= M)%N loads -> computeBuffSize 40 eps (sizeR M) = Done b ->
  masksProb eps (sizeR M) (sizeR b) (pre ++ (s + 1)%N :: mid ++ t :: post) loads E <=
    exp eps * masksProb eps (sizeR M) (sizeR b) (pre ++ s :: mid ++ (t + 1)%N :: post) loads E + (exp (eps + eps / sizeR M) / 2 ^ 40 + / 2 ^ 80) /\
  masksProb eps (sizeR M) (sizeR b) (pre ++ s :: mid ++ (t + 1)%N :: post) loads E <=
    exp eps * masksProb eps (sizeR M) (sizeR b) (pre ++ (s + 1)%N :: mid ++ t :: post) loads E + (exp (eps + eps / sizeR M) / 2 ^ 40 + / 2 ^ 80).
Proof. intros He HM HF HB. split; [by apply masks_dp|by apply masks_dp_back]. Qed.
Print Assumptions C161_masks.
Example C161_example E : exists b, computeBuffSize 40 (1 / 10) (sizeR 9) = Done b /\
  masksProb (1 / 10) (sizeR 9) (sizeR b) [3; 5; 4; 1]%N [9; 7; 8; 2]%N E <=
    exp (1 / 10) * masksProb (1 / 10) (sizeR 9) (sizeR b) [3; 4; 4; 2]%N [9; 7; 8; 2]%N E + (exp (1 / 10 + 1 / 10 / sizeR 9) / 2 ^ 40 + / 2 ^ 80).
Proof.
  destruct (buff_total (1 / 10) (sizeR 9)) as [b Hb]; [lra|unfold sizeR; cbn; lra|unfold sizeR; cbn; lra|]. exists b. split; [done|].
  change [3; 5; 4; 1]%N with ([3%N] ++ (4 + 1)%N :: [4%N] ++ 1%N :: []). change [3; 4; 4; 2]%N with ([3%N] ++ 4%N :: [4%N] ++ (1 + 1)%N :: []).
  refine (proj1 (C161_masks (1 / 10) 9 b [3%N] 4 [4%N] 1 [] [9; 7; 8; 2]%N E _ _ _ Hb)); [lra|lia|]. repeat constructor; lia.
Qed.

(** C162. Stated in full: [computeBuffSize] returns a buffer. False: for small parameters its [int] overflows. *)
Theorem C162_overflow_refuted eps max : 0 < eps -> 0 < max -> eps * 2 ^ 31 <= max -> computeBuffSize 40 eps max = UB.
Proof. exact (buff_overflow eps max). Qed.
Print Assumptions C162_overflow_refuted.
(** What holds: parameters that are not too small; the buffer is then too small for the noise with probability at most [2^-40]. *)
Theorem C162_buffer_partial eps max : 0 < eps -> 0 < max -> 39 * max <= eps * 2 ^ 31 ->
  exists b, computeBuffSize 40 eps max = Done b /\ lapCdf (eps / max) (- sizeR b) <= / 2 ^ 40.
Proof. exact (buff_enough eps max). Qed.
Print Assumptions C162_buffer_partial.
Example C162_example : computeBuffSize 40 (1 / 2 ^ 31) 1 = UB /\ exists b, computeBuffSize 40 (1 / 10) 255 = Done b.
Proof. split; [apply C162_overflow_refuted; lra|]. destruct (C162_buffer_partial (1 / 10) 255) as (b & Hb & _); [lra..|eauto]. Qed.
