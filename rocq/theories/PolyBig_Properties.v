(** Property theorems about the big polynomial of PRTY (C102, C103). *)
From Verif Require Import Base PolyTree_Model PolyTree_Spec PolyBig_Model PolyBig_Spec PolyBig_Proofs Prty_Model PolyTree_Properties.
Local Open Scope nat_scope.

Lemma F17_modular : modular F17 toN17 ofN17 17.
Proof.
  split; [exact F17_field|]. split; [intros []; by vm_compute|]. split; [intros []; by vm_compute|]. split.
  - intros n. unfold ofN17. assert (n mod 17 < 17)%N as H by by apply N.mod_lt. destruct (n mod 17)%N as [|m]; [done|]. do 5 (destruct m as [m|m|]; [try (exfalso; lia)..|done]).
  - split; intros a b; apply N.eqb_eq; revert a b; apply check2; by vm_compute.
Qed.
Definition sc0 : scheds := mkScheds [] [] [] [] [] (fun _ => []) (fun _ => []) (fun _ => []) (fun _ => []) (fun _ => []).

(** * C102: the sender obtains the values of the receiver's polynomial *)

(** The sender has three items and the receiver two: the third item of the sender gets zero. *)
Theorem C102_size_refuted : exists K rep ofN p lim xs ys zs q i j x y out, modular K rep ofN p /\ NoDup xs /\ normal K q /\ length q = length xs /\ Forall (fun a => (rep a < lim)%N) q /\ through K rep ofN q xs ys /\
  xs !! i = Some x /\ zs !! j = Some x /\ ys !! i = Some y /\ bigSlice K rep ofN lim sc0 1 1 1 [[]] [[]; []; []] xs ys zs = Done out /\ out !! j <> Some y.
Proof.
  exists F17, toN17, ofN17, 17%N, 16%N, [3; 5]%N, [7; 9]%N, [1; 5; 3]%N, [Z4; Z1], 0, 2, 3%N, 7%N, [5; 9; 0]%N. split; [exact F17_modular|].
  split. { repeat constructor; rewrite ?elem_of_cons, ?elem_of_nil; naive_solver. }
  split. { intros q a E. destruct q as [|b [|c [|]]]; [done| |done..]. by injection E as _ <-. }
  split; [done|]. split; [repeat constructor|]. split; [by vm_compute|]. split; [done|]. split; [done|]. split; [done|]. split; by vm_compute.
Qed.
Print Assumptions C102_size_refuted.
(** The receiver has three items and the sender two, or the values lie on a polynomial of lower degree. *)
Theorem C102_ub_refuted : exists K rep ofN p lim xs ys zs xs' ys' zs', modular K rep ofN p /\ NoDup xs /\ bigSlice K rep ofN lim sc0 1 1 1 (replicate 2 []) (replicate 5 []) xs ys zs = UB /\
  NoDup xs' /\ length zs' = length xs' /\ bigSlice K rep ofN lim sc0 1 1 1 (replicate 2 []) (replicate 5 []) xs' ys' zs' = UB.
Proof.
  exists F17, toN17, ofN17, 17%N, 16%N, [3; 5; 6]%N, [7; 9; 1]%N, [3; 5]%N, [3; 5; 6]%N, [8; 8; 8]%N, [3; 5; 6]%N. split; [exact F17_modular|].
  split. { repeat constructor; rewrite ?elem_of_cons, ?elem_of_nil; naive_solver. }
  split; [by vm_compute|]. split. { repeat constructor; rewrite ?elem_of_cons, ?elem_of_nil; naive_solver. } split; [done|by vm_compute].
Qed.
Print Assumptions C102_ub_refuted.
(** The numbers below [p] with the operations modulo [p]; the inverse by Euclid's algorithm. *)
Fixpoint egcd (fuel : nat) (r0 r1 t0 t1 : Z) : Z := match fuel with O => t0 | S f => if (r1 =? 0)%Z then t0 else egcd f r1 (r0 mod r1)%Z t1 (t0 - r0 / r1 * t1)%Z end.
Definition modOps (p : N) : fops := mkFops N 0%N 1%N (fun a b => ((a + b) mod p)%N) (fun a b => ((a * b) mod p)%N) (fun a b => ((a + p - b) mod p)%N) (fun a => ((p - a) mod p)%N)
  (fun a => Z.to_N (egcd 300 (Z.of_N p) (Z.of_N a) 0 1 mod Z.of_N p)%Z) N.eqb.
(** With the prime of the code: the values 100 and 54 at 1 and 2 give a coefficient of 2^128 + 5, of which 16 bytes are sent. *)
Theorem C102_coeff_refuted : exists xs ys zs i j x y out, xs !! i = Some x /\ zs !! j = Some x /\ ys !! i = Some y /\ Forall (fun v => (v < 2 ^ 128)%N) (xs ++ ys ++ zs) /\ length zs = length xs /\
  bigSlice (modOps prime128) id (fun n => (n mod prime128)%N) (2 ^ 128) sc0 1 1 1 [[]] [[]; []; []] xs ys zs = Done out /\ out !! j <> Some y.
Proof.
  exists [1; 2]%N, [100; 54]%N, [1; 2]%N, 1, 1, 2%N, 54%N, [151; 156]%N. split; [done|]. split; [done|]. split; [done|]. split; [repeat constructor|]. split; [done|]. split; by vm_compute.
Qed.
Print Assumptions C102_coeff_refuted.
(** As many items on the sender's side at least, a power of two of threads, and a polynomial of full degree whose coefficients fit: the common items among the
    first ones of the sender get the receiver's values; the others get zero. *)
Theorem C102_exchange_partial K rep ofN p lim s k1 k2 k3 old1 old2 xs ys zs q : modular K rep ofN p -> NoDup xs -> Forall (fun x => (x < p)%N) xs -> Forall (fun y => (y < lim)%N) ys ->
  2 * 2 ^ k1 <= length xs -> 2 * 2 ^ k2 <= length xs -> 2 * 2 ^ k3 <= length xs -> length xs <= length zs -> length old1 = length xs - 1 -> length old2 = 2 * length xs - 1 ->
  normal K q -> length q = length xs -> Forall (fun a => (rep a < lim)%N) q -> through K rep ofN q xs ys ->
  exists out, bigSlice K rep ofN lim s (2 ^ k1) (2 ^ k2) (2 ^ k3) old1 old2 xs ys zs = Done out /\ length out = length zs /\
    (forall i j x, xs !! i = Some x -> zs !! j = Some x -> j < length xs -> out !! j = ys !! i) /\ (forall j, length xs <= j < length zs -> out !! j = Some 0%N).
Proof. intros HM. exact (exchange_ok K rep ofN p HM lim s k1 k2 k3 old1 old2 xs ys zs q). Qed.
Print Assumptions C102_exchange_partial.
(** A polynomial of lower degree, or fewer items on the sender's side: undefined. *)
Theorem C102_short K rep ofN p lim s k1 k2 T3 old1 old2 xs ys zs q : modular K rep ofN p -> NoDup xs -> Forall (fun x => (x < p)%N) xs -> 2 * 2 ^ k1 <= length xs -> 2 * 2 ^ k2 <= length xs -> length old1 = length xs - 1 ->
  normal K q -> through K rep ofN q xs ys -> length q < length xs \/ length q = length xs /\ length zs < length xs -> bigSlice K rep ofN lim s (2 ^ k1) (2 ^ k2) T3 old1 old2 xs ys zs = UB.
Proof. intros HM. exact (short_ub K rep ofN p HM lim s k1 k2 T3 old1 old2 xs ys zs q). Qed.
Print Assumptions C102_short.
Example C102_example : let q := [Z4; Z1; Z0; Z2] in let xs := [3; 5; 6; 11]%N in let ys := [10; 4; 0; 8]%N in
  through F17 toN17 ofN17 q xs ys /\ Forall (fun a => (toN17 a < 16)%N) q /\
  bigSlice F17 toN17 ofN17 16 (mkScheds [1] [1; 0] [0] [1; 1] [] (fun _ => [1]) (fun _ => []) (fun _ => []) (fun _ => []) (fun _ => [])) 2 1 2 (replicate 3 [Z5]) (replicate 7 [Z9]) xs ys [11; 2; 3; 9; 5]%N = Done [8; 5; 10; 9; 0]%N.
Proof. cbn zeta. split; [by vm_compute|]. split; [repeat constructor|by vm_compute]. Qed.

(** * C103: the slices fit their fields *)
Theorem C103_slices n : let F := N.of_nat (fieldSizeOf n) in
  (2 ^ 128 < prime128 /\ 2 ^ 128 < primeLast F /\ 2 ^ (F - 256) < primeLast F /\ 2 ^ (F - 256) <= 256 ^ lastBytes F /\ (F mod 8 <> 0 -> primeLast F < 256 ^ lastBytes F))%N.
Proof. exact (slices_ok n). Qed.
Print Assumptions C103_slices.
Example C103_example : fieldSizeOf 4096 = 420 /\ lastBytes 420 = 21%N /\ fieldSizeOf 100 = 416 /\ lastBytes 416 = 20%N.
Proof. repeat split; by vm_compute. Qed.
