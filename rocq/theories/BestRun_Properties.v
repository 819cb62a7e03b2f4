(** Property theorems about complete runs of PRTY with the smallest communication (C199). *)
From Verif Require Import Base Balanced_Model Balanced_Spec Prty_Model Prty_Spec PrtyDiff_Model PrtyDiff_Spec BestRun_Model BestRun_Spec BestRun_Proofs BestRun_Proofs2.
From Verif Require Prty_Properties.

(** * C199: the receiver gets the positions of the common items *)

(** Five and four items, all four common: the message is exactly full, the receiver stops before the last mask, and position 3 is lost without an error. *)
Theorem C199_last_refuted : exists P ordB enc rs lo e R S out,
  anyOrder ordB /\ lightLoads enc R /\ NoDup R /\ NoDup S /\ noNeighbours R /\ interpolates P (fieldSizeOf (N.of_nat (length R))) /\ masksDistinct32 P (fieldSizeOf (N.of_nat (length R))) R /\
  (forall es, lo es ≡ₚ es) /\ envFine e /\ bestRun P ordB enc rs lo e R S = Done out /\ exists i x, R !! i = Some x /\ x ∈ S /\ i ∉ out.
Proof.
  exists bP, Prty_Properties.exId, (fun x => x), [], (fun l => l), bE, R5, S4, [0; 1; 2]%nat. split; [apply Prty_Properties.exId_ok|].
  split; [apply (bool_decide_unpack _); vm_compute; exact I|]. split; [apply (bool_decide_unpack _); by vm_compute|]. split; [apply (bool_decide_unpack _); by vm_compute|].
  split; [apply Prty_Properties.neighboursCheck; by vm_compute|]. split; [exact (Prty_Properties.exP_interpolates 416)|]. split; [apply masks32_ok; by vm_compute|].
  split; [done|]. split; [apply bE_fine|]. split; [by vm_compute|]. exists 3%nat, 15. split; [done|]. split; [apply (bool_decide_unpack _); by vm_compute|]. apply (bool_decide_unpack _); by vm_compute.
Qed.
Print Assumptions C199_last_refuted.
(** In general: if the first mask and the differences are longer than [1.02 * n2 * h] bytes, the sender writes behind its buffer and the run does not end well. *)
Theorem C199_short_refuted P ordB enc rs lo e R S : let n1 := N.of_nat (length R) in let n2 := N.of_nat (length S) in
  envFine e -> n1 < 2 ^ 64 -> (0 < length S)%nat -> (length S * hBytes n1 * 102 / 100 < bBytes n1 n2 + hBytes n1 * (length S - 1))%nat -> forall out, bestRun P ordB enc rs lo e R S <> Done out.
Proof. exact (best_short P ordB enc rs lo e R S). Qed.
Print Assumptions C199_short_refuted.
(** 64 items against 8: 6 bytes for a difference and 7 for the first mask, 49 bytes into a buffer of 48. *)
Example C199_short_example P ordB enc rs lo e R S out : envFine e -> length R = 64%nat -> length S = 8%nat -> bestRun P ordB enc rs lo e R S <> Done out.
Proof. intros He HR HS. apply C199_short_refuted; [done|by rewrite HR|lia|]. rewrite HR, HS. apply Nat.ltb_lt; by vm_compute. Qed.

(** If no bin of the balanced allocation overflows, no two items differ in the last bit only, the receiver's masks differ in four bytes, and the messages of both
    hash numbers have room and no equal neighbours, then the run ends and reports every common item. What it reports is an item whose mask is, in [h] bytes,
    a mask of the sender for the same hash number, or whose mask has [b] zero bytes. *)
Theorem C199_run_partial P ordB enc rs lo e R S :
  let n1 := N.of_nat (length R) in let n2 := N.of_nat (length S) in let F := fieldSizeOf n1 in let hb := hBytes n1 in let bb := bBytes n1 n2 in
  anyOrder ordB -> lightLoads enc R -> Forall (fun x => x < 2 ^ 128) R -> NoDup R -> noNeighbours R -> interpolates P F -> (forall x, henc P x < 2 ^ 128) -> masksDistinct32 P F R ->
  (forall es, lo es ≡ₚ es) -> envFine e -> 1 <= n1 -> 4 <= n2 -> n1 * n2 < 2 ^ 64 ->
  exists bins, balanced ordB enc 40 1 R rs = Done bins /\
    ((forall h, h < 2 -> roomFor hb bb (bSort e h (map (senderMask P F enc R bins h) S))) ->
     exists out, bestRun P ordB enc rs lo e R S = Done out /\
       (forall i x, R !! i = Some x -> x ∈ S -> i ∈ out) /\
       (forall i, i ∈ out -> exists x h, R !! i = Some x /\ h < 2 /\
          ((exists y, y ∈ S /\ low hb (senderMask P F enc R bins h y) = low hb (recvMask P F (point h x))) \/ low bb (recvMask P F (point h x)) = 0))).
Proof. exact (best_run P ordB enc rs lo e R S). Qed.
Print Assumptions C199_run_partial.
(** If moreover no mask of the receiver is zero and no mask of the sender agrees with the mask of another item, exactly the common items are reported. *)
Theorem C199_exact_partial P ordB enc rs lo e R S :
  let n1 := N.of_nat (length R) in let n2 := N.of_nat (length S) in let F := fieldSizeOf n1 in let hb := hBytes n1 in let bb := bBytes n1 n2 in
  anyOrder ordB -> lightLoads enc R -> Forall (fun x => x < 2 ^ 128) R -> NoDup R -> noNeighbours R -> interpolates P F -> (forall x, henc P x < 2 ^ 128) -> masksDistinct32 P F R ->
  (forall es, lo es ≡ₚ es) -> envFine e -> 1 <= n1 -> 4 <= n2 -> n1 * n2 < 2 ^ 64 ->
  (forall h x, h < 2 -> x ∈ R -> recvMask P F (point h x) mod 2 ^ (8 * N.of_nat bb) <> 0) ->
  exists bins, balanced ordB enc 40 1 R rs = Done bins /\
    ((forall h, h < 2 -> roomFor hb bb (bSort e h (map (senderMask P F enc R bins h) S))) -> noFalseMatch P F enc R bins S hb ->
     exists out, bestRun P ordB enc rs lo e R S = Done out /\ forall i, i ∈ out <-> exists x, R !! i = Some x /\ x ∈ S).
Proof. exact (best_exact P ordB enc rs lo e R S). Qed.
Print Assumptions C199_exact_partial.
(** 20 items against 10, five of them common: the hypotheses hold and the run reports these five. *)
Example C199_run_example : bestRun bP Prty_Properties.exId (fun x => x) [] (fun l => l) bE R20 S10 = Done [15; 16; 17; 18; 19]%nat /\ lightLoads (fun x => x) R20 /\ NoDup R20 /\ noNeighbours R20 /\ masksDistinct32 bP 416 R20 /\
  fieldSizeOf 20 = 416%nat /\ hBytes 20 = 6%nat /\ bBytes 20 10 = 6%nat /\
  balanced Prty_Properties.exId (fun x => x) 40 1 R20 [] = Done bins20 /\ forall h, h < 2 -> roomFor 6 6 (bSort bE h (map (senderMask bP 416 (fun x => x) R20 bins20 h) S10)).
Proof.
  split; [by vm_compute|]. split; [apply (bool_decide_unpack _); vm_compute; exact I|]. split; [apply (bool_decide_unpack _); by vm_compute|]. split; [apply Prty_Properties.neighboursCheck; by vm_compute|].
  split; [apply masks32_ok; by vm_compute|]. split; [done|]. split; [done|]. split; [done|]. split; [by vm_compute|]. intros h Hh. apply room_ok. assert (h = 0 \/ h = 1) as [-> | ->] by lia; by vm_compute.
Qed.
