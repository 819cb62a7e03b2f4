(** Property theorems about complete runs of PRTY with the big polynomial (C190). *)
From Verif Require Import Base Prty_Model PolyTree_Model PolyTree_Spec PolyBig_Model PolyBig_Spec PrtyDiff_Model PrtyDiff_Spec BigRun_Model BigRun_Spec BigRun_Proofs BigRun_Proofs2.
From Verif Require PolyBig_Properties.
Local Open Scope nat_scope.

(** * C190: the receiver gets the positions of the common items *)

(** Two items each, the same ones: all three polynomials arrive and the sender writes beyond the buffer of its first message. *)
Definition P2 : prty := mkPrty (fun k x => x) (fun k x => (x * x + 1)%N) (fun k => Nat.even k) (fun x => x) (fun _ _ => []).
Definition sliceMod (p : N) : slice := mkSlice (PolyBig_Properties.modOps p) id (fun n => (n mod p)%N) PolyBig_Properties.sc0 [[]] [[]; []; []].
Definition e2 : bigEnv := mkBigEnv (fun _ => 0%N) (fun l => l) (fun l => l) (fun _ _ _ => 0%N) 0 0.
Theorem C190_refuted : exists P e a0 a1 a2 xs zs, NoDup xs /\ zs ≡ₚ xs /\ envOk e /\
  (forall j s lim, In (j, s, lim) [(0, a0, (2 ^ 128)%N); (1, a1, (2 ^ 128)%N); (2, a2, lastLim (fieldSizeOf 2))] -> exists o, runSlice s lim 1 1 1 xs (valsOf P (fieldSizeOf 2) j xs) zs = Done o) /\
  bigRun P e a0 a1 a2 (2 ^ 14) 1 xs zs = UB.
Proof.
  exists P2, e2, (sliceMod prime128), (sliceMod prime128), (sliceMod (primeLast 416)), [3; 5]%N, [5; 3]%N.
  split; [apply (bool_decide_unpack _); by vm_compute|]. split; [apply perm_swap|]. split; [by repeat split|].
  split; [|by vm_compute]. intros j s lim [E|[E|[E|[]]]]; injection E as <- <- <-; eexists; vm_compute; reflexivity.
Qed.
Print Assumptions C190_refuted.
(** In general: a step of a thread with at most 49 differences (at most 50 masks) is not sent, and the run does not end well. *)
Theorem C190_short_refuted P e a0 a1 a2 step T xs zs t ss s c : (forall l, eSort e l ≡ₚ l) -> 2 <= length xs -> length xs <= length zs -> (N.of_nat (length xs) < 2 ^ 64)%N -> 0 < step -> t < T ->
  diffSteps step (length zs) T t = Some ss -> (s, c) ∈ ss -> c <= 49 -> forall out, bigRun P e a0 a1 a2 step T xs zs <> Done out.
Proof. exact (run_short P e a0 a1 a2 step T xs zs t ss s c). Qed.
Print Assumptions C190_short_refuted.
(** 120 items with steps of 100: the second step has 19 differences. *)
Example C190_short_example P e a0 a1 a2 xs zs out : (forall l, eSort e l ≡ₚ l) -> length xs = 120 -> length zs = 120 -> bigRun P e a0 a1 a2 100 1 xs zs <> Done out.
Proof.
  intros HeS Hx Hz. apply (C190_short_refuted P e a0 a1 a2 100 1 xs zs 0 [(0, 100); (100, 19)] 100 19); [done|lia|lia|by rewrite Hx|lia|lia|by rewrite Hz; vm_compute|right; left|lia].
Qed.

(** If each slice has a polynomial with as many coefficients as the receiver has items and every coefficient fits, the receiver's masks differ in four bytes, and
    the sender's messages have room and no equal neighbours, then the run ends and reports every common item among the first items of the sender, as many as the
    receiver has. What it reports is an item whose mask is, in [h] bytes, a mask of the sender, or whose mask has [b] zero bytes. *)
Theorem C190_run_partial P e a0 a1 a2 p0 p1 p2 step k xs zs : let n1 := N.of_nat (length xs) in let n2 := N.of_nat (length zs) in let F := fieldSizeOf n1 in let h := hBytes n1 in let b := bBytes n1 n2 in
  NoDup xs -> length xs <= length zs -> (n1 < 2 ^ 64)%N -> 2 * 2 ^ k <= length xs -> 0 < step -> envOk e -> (forall x, henc P x < 2 ^ 128)%N ->
  sliceGood a0 p0 (2 ^ 128) xs (valsOf P F 0 xs) -> sliceGood a1 p1 (2 ^ 128) xs (valsOf P F 1 xs) -> sliceGood a2 p2 (lastLim F) xs (valsOf P F 2 xs) ->
  NoDup (map (fun x => key32 (recvMask P F x)) xs) ->
  exists o0 o1 o2, runSlice a0 (2 ^ 128) (2 ^ k) (2 ^ k) (2 ^ k) xs (valsOf P F 0 xs) zs = Done o0 /\ runSlice a1 (2 ^ 128) (2 ^ k) (2 ^ k) (2 ^ k) xs (valsOf P F 1 xs) zs = Done o1 /\
    runSlice a2 (lastLim F) 1 (2 ^ k) 1 xs (valsOf P F 2 xs) zs = Done o2 /\
    let gh := bigMasks P F (eJunk e) o0 o1 o2 zs in
    (forall j x, j < length xs -> zs !! j = Some x -> x ∈ xs -> gh !! j = Some (recvMask P F x)) /\
    (stepsFine h b step (2 ^ k) (eSort e gh) -> exists out, bigRun P e a0 a1 a2 step (2 ^ k) xs zs = Done out /\
      (forall i j x, xs !! i = Some x -> zs !! j = Some x -> j < length xs -> i ∈ out) /\
      (forall i, i ∈ out -> exists x, xs !! i = Some x /\ ((exists m, m ∈ gh /\ low h m = low h (recvMask P F x)) \/ low b (recvMask P F x) = 0%N))).
Proof. exact (run_ok P e a0 a1 a2 p0 p1 p2 step k xs zs). Qed.
Print Assumptions C190_run_partial.
(** 68 items modulo 71, with the sender's items in the reverse order: the hypotheses hold and every position is reported. *)
Example C190_run_example : exists out, bigRun P71 e71 s71 s71 s71 100 1 xs71 (reverse xs71) = Done out /\ forall i, i < 68 -> i ∈ out.
Proof. exact case71. Qed.
