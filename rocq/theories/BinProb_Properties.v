(** Property theorems about the overflow probability of bins (C124, C125). *)
From Coq Require Import QArith.
From Verif Require Import Base Tools_Spec SimpleIndex_Model SimpleHasher_Model BinProb_Model BinProb_Spec BinProb_Proofs BinProb_Proofs2.
Open Scope N_scope.

(** * C124: the chosen bin size *)

(** What is counted: [placements b n] are the [b ^ n] functions from balls to bins, each once. *)
Theorem C124_placements b n : length (placements b n) = (b ^ n)%nat /\ NoDup (placements b n) /\
  forall f, f ∈ placements b n <-> length f = n /\ Forall (fun j => j < b)%nat f.
Proof. split; [apply placements_length|]. split; [apply placements_NoDup|]. intros f. apply elem_placements. Qed.
Print Assumptions C124_placements.

(** The search ends, and at most the fraction [(1 + (c - 1) n / b) / 2 ^ stat] of the placements overflows, [c = cn / cd] being the ratio of successive sums at which the
    estimate stops ([2 ^ 0.0001 = 1.0000694]). *)
Theorem C124_bin_size cn cd b n stat : 0 < b -> n <= 2 ^ 31 - 1 -> 0 < cd <= cn -> cn < 2 * cd ->
  exists f0 size, (forall fuel, (f0 <= fuel)%nat -> getBinSize (estimate cn cd) fuel b n stat = Done size) /\ 1 <= size /\
    overflowCount (N.to_nat b) (N.to_nat n) (N.to_nat size) * 2 ^ stat * (cd * b) <= (cd * b + (cn - cd) * n) * b ^ n.
Proof. exact (chosen_bound cn cd b n stat). Qed.
Print Assumptions C124_bin_size.
(** Six balls in three bins: for four bits of security the size is four (39 of 729 placements overflow; with size three it would be 219), for five bits it is five (3 overflow). *)
Example C124_example :
  getBinSize (estimate 100006932 100000000) 100 3 6 4 = Done 4 /\ overflowCount 3 6 4 = 39 /\ overflowCount 3 6 3 = 219 /\
  getBinSize (estimate 100006932 100000000) 100 3 6 5 = Done 5 /\ overflowCount 3 6 5 = 3.
Proof. split_and!; by vm_compute. Qed.

(** The estimate alone is no bound: with one bin the first terms are zero, the difference of their logarithms is not a number, and the estimate is infinite although
    each placement overflows. (The search starts at the size that holds all balls in this case.) *)
Theorem C124_estimate_one_bin : (estimate 100006932 100000000 1 4 1 == inject_Z (2 ^ 64))%Q /\ overflowCount 1 4 1 = 1 ^ 4.
Proof. split; by vm_compute. Qed.
Print Assumptions C124_estimate_one_bin.

(** * C125: the bins of [SimpleHasher] *)

(** [init] throws if the size does not fit the 8-bit counters. Otherwise, except for that fraction of the placements, all pushes by any number of threads in any
    interleaving stay in the rows, and after them each bin holds exactly the values placed in it. *)
Theorem C125_hasher cn cd b n sec : 0 < b -> n <= 2 ^ 31 - 1 -> 0 < cd <= cn -> cn < 2 * cd ->
  exists f0 size, 1 <= size /\
    overflowCount (N.to_nat b) (N.to_nat n) (N.to_nat size) * 2 ^ sec * (cd * b) <= (cd * b + (cn - cd) * n) * b ^ n /\
    (255 < size -> forall fuel, (f0 <= fuel)%nat -> exists h, shInit cn cd fuel b n sec = Some (Thrown (size, h))) /\
    (size <= 255 -> exists h0, (forall fuel, (f0 <= fuel)%nat -> shInit cn cd fuel b n sec = Some (Done (size, h0))) /\
       forall f vals work sched, f ∈ placements (N.to_nat b) (N.to_nat n) -> overflows (N.to_nat b) (N.to_nat size) f = false -> length vals = length f ->
         concat work ≡ₚ zip (map N.of_nat f) vals ->
         exists h ts, pushRun h0 (map (mkPusher None) work) sched = Some (h, ts) /\
           (Forall (fun t => puPending t = None /\ puTodo t = []) ts ->
            forall j, (j < N.to_nat b)%nat -> getBin h j ≡ₚ valsTo j (zip (map N.of_nat f) vals))).
Proof. exact (hasher_bound cn cd b n sec). Qed.
Print Assumptions C125_hasher.
(** Six items in three bins, two threads. *)
Example C125_example : exists h0 h ts,
  let f := [2; 0; 2; 2; 1; 2]%nat in let vals := [10; 11; 12; 13; 14; 15] in let work := [[(2, 13); (1, 14); (2, 15)]; [(2, 10); (0, 11); (2, 12)]] in
  shInit 100006932 100000000 100 3 6 4 = Some (Done (4, h0)) /\ overflows 3 4 f = false /\ concat work ≡ₚ zip (map N.of_nat f) vals /\
  pushRun h0 (map (mkPusher None) work) (concat (replicate 6 [0%nat; 1%nat])) = Some (h, ts) /\
  Forall (fun t => puPending t = None /\ puTodo t = []) ts /\ getBin h 2 = [13; 10; 15; 12] /\ valsTo 2 (zip (map N.of_nat f) vals) = [10; 12; 13; 15].
Proof.
  do 3 eexists. cbn zeta. split; [by vm_compute|]. split; [by vm_compute|]. split.
  { exact (Permutation_app_comm [(2, 13); (1, 14); (2, 15)] [(2, 10); (0, 11); (2, 12)]). }
  split; [by vm_compute|]. split; [by repeat constructor|]. split; by vm_compute.
Qed.
(** Too many items for one-byte counters. *)
Example C125_throws : exists h, shInit 100006932 100000000 100 1 300 40 = Some (Thrown (300, h)).
Proof. eexists. by vm_compute. Qed.
