(** Property theorems about simple hashing (C07, C08, C09, C11). *)
From Coq Require Import QArith.
From Verif Require Import Base CuckooIndex_Spec SimpleIndex_Model SimpleIndex_Spec SimpleIndex_Proofs BinSize_Proofs.
Open Scope N_scope.

(** * C07: three hash functions *)

(** Every item with its three hash functions is in the bins, with the collision flag. *)
Definition allPlaced (enc : N -> N) (nb : N) (xs : list N) (s : SIndex) : Prop :=
  forall i x h b, xs !! i = Some x -> h < 3 -> mapsTo nb (N.lxor (enc x) x) h (N.of_nat b) ->
    exists c, (N.of_nat i, h, c) ∈ binEntries s b.

Theorem C07_simple_hashing_refuted :
  exists enc nb n mx xs s, 0 < nb /\ length xs = N.to_nat n /\
    (forall b, (binLoad nb 3 (map (fun x => N.lxor (enc x) x) xs) b <= N.to_nat mx)%nat) /\
    siInsert enc (siInit nb n 3 mx) xs = Done s /\ ~ allPlaced enc nb xs s.
Proof.
  exists (fun x => x + 7), 4, 2, 6, [100; 200]. eexists. split; [done|]. split; [done|].
  split.
  { intros b. unfold binLoad. etrans; [apply filter_length|]. vm_compute. lia. }
  split; [vm_compute; reflexivity|]. intros A.
  destruct (A 1%nat 200 0 3%nat) as [c Hc]; [done|done|vm_compute; reflexivity|].
  revert Hc. vm_compute. intros Hc. repeat (apply elem_of_cons in Hc as [Hc|Hc]; [by destruct c|]).
  by apply elem_of_nil in Hc.
Qed.
Print Assumptions C07_simple_hashing_refuted.

(** What holds for every set size [n]: exactly the items at positions below
    [8 * (n / 8) + 1] are placed, so the full statement holds iff n mod 8 <= 1. *)
Theorem C07_simple_hashing_partial enc nb n mx xs s :
  0 < nb -> nb < 2 ^ 64 -> N.of_nat (length xs) <= 2 ^ 56 ->
  siInsert enc (siInit nb n 3 mx) xs = Done s ->
  (forall b, NoDup (binEntries s b) /\
     forall i h c, (i, h, c) ∈ binEntries s b <->
       exists x, xs !! N.to_nat i = Some x /\ (N.to_nat i < 8 * (length xs / 8) + 1)%nat /\ h < 3 /\
         mapsTo nb (N.lxor (enc x) x) h (N.of_nat b) /\ (c = true <-> repeats nb (N.lxor (enc x) x) h)) /\
  (forall i h x, xs !! i = Some x -> (i < 8 * (length xs / 8) + 1)%nat -> (h < 3)%nat ->
     exists v, mapCell s i h = Some v /\
       (repeats nb (N.lxor (enc x) x) (N.of_nat h) -> v = 2 ^ 64 - 1) /\
       (~ repeats nb (N.lxor (enc x) x) (N.of_nat h) -> mapsTo nb (N.lxor (enc x) x) (N.of_nat h) v)).
Proof. exact (simple3 enc nb n mx xs s). Qed.
Print Assumptions C07_simple_hashing_partial.

(** Insertion stays in range if no bin's load exceeds the bin capacity. *)
Theorem C07_simple_hashing_defined enc nb n mx xs :
  0 < nb -> (length xs <= N.to_nat n)%nat ->
  (forall b, (binLoad nb 3 (map (fun x => N.lxor (enc x) x) xs) b <= N.to_nat mx)%nat) ->
  exists s, siInsert enc (siInit nb n 3 mx) xs = Done s.
Proof. exact (simple3_defined enc nb n mx xs). Qed.
Print Assumptions C07_simple_hashing_defined.

Definition exXs (n : nat) : list N := map (fun i => N.of_nat i * 1000003 + 17) (seq 0 n).
Definition exEnc (x : N) : N := (x * 0x9e3779b97f4a7c15f39cc0605cedc835) mod 2 ^ 128.
Example C07_example :
  exists s, siInsert exEnc (siInit 5 17 3 51) (exXs 17) = Done s /\
    length (concat (map (binEntries s) (seq 0 5))) = 51%nat.
Proof. eexists. split; [vm_compute; reflexivity|vm_compute; reflexivity]. Qed.
Example C07_load_example b : (binLoad 5 3 (map (fun x => N.lxor (exEnc x) x) (exXs 17)) b <= N.to_nat 51)%nat.
Proof. unfold binLoad. etrans; [apply filter_length|]. vm_compute. lia. Qed.

(** * C08: other numbers of hash functions *)

(** The statement: an insertion that fits the bins returns and every map row is that of its item. *)
Definition mapRowsRight (enc : N -> N) (nb H : N) (xs : list N) (s : SIndex) : Prop :=
  forall i h x, xs !! i = Some x -> (h < N.to_nat H)%nat ->
    exists v, mapCell s i h = Some v /\
      (~ repeats nb (N.lxor (enc x) x) (N.of_nat h) -> mapsTo nb (N.lxor (enc x) x) (N.of_nat h) v).

Theorem C08_simple_hashing_two_refuted :
  exists enc nb n mx xs, 0 < nb /\ length xs = N.to_nat n /\
    (forall b, (binLoad nb 2 (map (fun x => N.lxor (enc x) x) xs) b <= N.to_nat mx)%nat) /\
    siInsert enc (siInit nb n 2 mx) xs = UB.
Proof.
  exists exEnc, 4, 9, 18, (exXs 9). split; [done|]. split; [done|]. split.
  { intros b. unfold binLoad. etrans; [apply filter_length|]. vm_compute. lia. }
  vm_compute. reflexivity.
Qed.
Print Assumptions C08_simple_hashing_two_refuted.

(** With a larger map the rows of later items are silently left unset. *)
Theorem C08_simple_hashing_rows_refuted :
  exists enc nb n mx xs s, 0 < nb /\ (length xs <= N.to_nat n)%nat /\
    siInsert enc (siInit nb n 2 mx) xs = Done s /\ ~ mapRowsRight enc nb 2 xs s.
Proof.
  exists exEnc, 7, 40, 18, (exXs 9). eexists. split; [done|]. split; [vm_compute; lia|].
  split; [vm_compute; reflexivity|]. intros M.
  destruct (M 8%nat 0%nat 8000041) as (v & Hv & Hm); [reflexivity|vm_compute; lia|].
  vm_compute in Hv. injection Hv as <-.
  assert (mapsTo 7 (N.lxor (exEnc 8000041) 8000041) 0 0) as X; [|vm_compute in X; done].
  apply Hm. intros (h' & b & Hh & _). lia.
Qed.
Print Assumptions C08_simple_hashing_rows_refuted.

(** For any set size the bins are right; the map is right for sets of at most 8 items. *)
Theorem C08_simple_hashing_partial enc nb n H mx xs s :
  0 < nb -> nb < 2 ^ 64 -> H <= 5 -> H ≠ 3 -> N.of_nat (length xs) <= 2 ^ 56 ->
  siInsert enc (siInit nb n H mx) xs = Done s ->
  (forall b, NoDup (binEntries s b) /\
     forall i h c, (i, h, c) ∈ binEntries s b <->
       exists x, xs !! N.to_nat i = Some x /\ h < H /\
         mapsTo nb (N.lxor (enc x) x) h (N.of_nat b) /\ (c = true <-> repeats nb (N.lxor (enc x) x) h)) /\
  ((length xs <= 8)%nat ->
   (forall i h x, xs !! i = Some x -> (h < N.to_nat H)%nat ->
     exists v, mapCell s i h = Some v /\
       (repeats nb (N.lxor (enc x) x) (N.of_nat h) -> v = 2 ^ 64 - 1) /\
       (~ repeats nb (N.lxor (enc x) x) (N.of_nat h) -> mapsTo nb (N.lxor (enc x) x) (N.of_nat h) v)) /\
   (forall i h, (length xs <= i)%nat -> mapCell s i h = mapCell (siInit nb n H mx) i h)).
Proof. exact (simpleN enc nb n H mx xs s). Qed.
Print Assumptions C08_simple_hashing_partial.

Theorem C08_simple_hashing_defined_partial enc nb n H mx xs :
  0 < nb -> H <= 5 -> H ≠ 3 -> (length xs <= 8)%nat -> (length xs <= N.to_nat n)%nat ->
  (forall b, (binLoad nb H (map (fun x => N.lxor (enc x) x) xs) b <= N.to_nat mx)%nat) ->
  exists s, siInsert enc (siInit nb n H mx) xs = Done s.
Proof. exact (simpleN_defined enc nb n H mx xs). Qed.
Print Assumptions C08_simple_hashing_defined_partial.

Example C08_example : exists s, siInsert exEnc (siInit 5 8 4 32) (exXs 8) = Done s.
Proof. eexists. vm_compute. reflexivity. Qed.
Example C08_load_example b : (binLoad 5 4 (map (fun x => N.lxor (exEnc x) x) (exXs 8)) b <= N.to_nat 32)%nat.
Proof. unfold binLoad. etrans; [apply filter_length|]. vm_compute. lia. Qed.

(** * C09: bin size search *)

Theorem C09_bin_size est nb n stat : 0 < nb -> n <= 2 ^ 31 - 1 ->
  exists f0 r, (forall fuel, (f0 <= fuel)%nat -> getBinSize est fuel nb n stat = Done r) /\
    N.max 1 (n / nb) <= r /\ meets est nb n stat r /\
    ((forall a b, N.max 1 (n / nb) <= a -> a <= b -> meets est nb n stat a -> meets est nb n stat b) ->
     forall B, N.max 1 (n / nb) <= B -> B < r -> ~ meets est nb n stat B).
Proof. exact (getBinSize_full est nb n stat). Qed.
Print Assumptions C09_bin_size.

Theorem C09_bin_size_sound est fuel nb n stat r :
  getBinSize est fuel nb n stat = Done r -> meets est nb n stat r.
Proof. exact (getBinSize_meets est fuel nb n stat r). Qed.
Print Assumptions C09_bin_size_sound.

Theorem C09_bin_size_too_many est fuel nb n stat : 2 <= nb -> 2 ^ 31 <= n ->
  getBinSize est fuel nb n stat = Thrown 0.
Proof. exact (getBinSize_big est fuel nb n stat). Qed.
Print Assumptions C09_bin_size_too_many.

(** An estimator that gives 2 bits of security per slot above the mean of 10. *)
Example C09_example : getBinSize (fun nb n B => inject_Z (2 * (Z.of_N B - 10))) 100 100 1000 40 = Done 30.
Proof. vm_compute. reflexivity. Qed.

(** * C11: packed items of simple hashing *)

Theorem C11_simple_item idx h c : idx < 2 ^ 56 - 1 -> h < 128 ->
  itemIdx (itemWord idx h c) = idx /\ itemHashIdx (itemWord idx h c) = h /\
  itemCollision (itemWord idx h c) = c /\ itemEmpty (itemWord idx h c) = false /\
  itemWord idx h c < 2 ^ 64.
Proof. exact (itemWord_ok idx h c). Qed.
Print Assumptions C11_simple_item.
Example C11_simple_example :
  let w := itemWord 123456789 2 true in
  itemIdx w = 123456789 /\ itemHashIdx w = 2 /\ itemCollision w = true.
Proof. vm_compute. done. Qed.
