(** Theorems about the places of the masks in PRTY. *)
From Verif Require Import Base Balanced_Model Prty_Model Prty_Spec PrtyPlace_Model PrtyPlace_Spec PrtyPlace_Proofs.

(** * C170: each mask has a place of its own *)

(** Two threads that each have a mask with the same hash number as the next one: there is a schedule in which the mask of the one takes the place of the mask of
    the other; all other masks are placed. *)
Theorem C170_race n h m1 m2 l1 l2 : (forall h', (length (masksOf h' ((h, m1) :: l1 ++ (h, m2) :: l2)) <= n)%nat) ->
  exists sched s, placeRun sched (placeInit n [(h, m1) :: l1; (h, m2) :: l2]) = Done s /\ placeDone s /\
    forall h', exists taken, taken ≡ₚ masksOf h' ((h, m2) :: l1 ++ l2) /\ psGh s h' = taken ++ replicate (n - length taken) 0.
Proof. exact (place_lost n h m1 m2 l1 l2). Qed.
Print Assumptions C170_race.
(** A common item is missing from the output: its mask was overwritten; another schedule of the same threads has it in the output. *)
Theorem C170_lost_refuted : exists n work es i sched s sched' s',
  placeRun sched (placeInit n work) = Done s /\ placeDone s /\ placeRun sched' (placeInit n work) = Done s' /\ placeDone s' /\
  matchAll (fun _ l => l) 2 9 2 n es (psGh s) = Done [] /\ matchAll (fun _ l => l) 2 9 2 n es (psGh s') = Done [i].
Proof.
  exists 2%nat, [[(0, 9); (1, 4)]; [(0, 5); (1, 6)]], [(0, (9, 7%nat))], 7%nat, [0; 1; 0; 1; 0; 1; 0; 0; 0; 1; 1; 1]%nat.
  eexists. exists [0; 0; 0; 1; 1; 1; 0; 0; 0; 1; 1; 1]%nat. eexists. split; [by apply runOk_run; vm_compute|]. split; [apply doneCheck; by vm_compute|].
  split; [by apply runOk_run; vm_compute|]. split; [apply doneCheck; by vm_compute|]. by vm_compute.
Qed.
Print Assumptions C170_lost_refuted.

(** With indivisible increments every schedule gives each mask a place of its own. *)
Theorem C170_places_partial n work sched : (forall h, (length (masksOf h (concat work)) <= n)%nat) -> atOnce sched (placeInit n work) ->
  exists s, placeRun sched (placeInit n work) = Done s /\
    (placeDone s -> forall h, exists taken, taken ≡ₚ masksOf h (concat work) /\ psGh s h = taken ++ replicate (n - length taken) 0).
Proof. exact (place_all n work sched). Qed.
Print Assumptions C170_places_partial.
(** One thread: in the order of the thread. *)
Theorem C170_single_partial n work sched : (forall h, (length (masksOf h work) <= n)%nat) ->
  exists s, placeRun sched (placeInit n [work]) = Done s /\ (placeDone s -> forall h, psGh s h = masksOf h work ++ replicate (n - length (masksOf h work)) 0).
Proof. exact (place_one n work sched). Qed.
Print Assumptions C170_single_partial.
(** The masks of the threads are those of the run ([sendHashes]): one per item and hash number. *)
Theorem C170_masks P F enc m pol S T h : 0 < m -> (0 < T)%nat -> m * N.of_nat T < 2 ^ 64 -> h = 0 \/ h = 1 ->
  masksOf h (concat (map (threadWork P F enc m pol S T) (seq 0 T))) ≡ₚ sendHashes P F enc m pol S h.
Proof. exact (all_masks P F enc m pol S T h). Qed.
Print Assumptions C170_masks.

Definition exWork : list (list (N * N)) := [[(0, 9); (1, 4); (0, 3)]; [(1, 5); (0, 6)]].
(** Interleaved threads, increments indivisible; one mask is written after a later place has been taken. *)
Example C170_example : (forall h, (length (masksOf h (concat exWork)) <= 3)%nat) /\ atOnce [1; 1; 0; 0; 0; 0; 0; 1; 1; 1; 0; 0; 0; 0; 1]%nat (placeInit 3 exWork) /\
  exists s, placeRun [1; 1; 0; 0; 0; 0; 0; 1; 1; 1; 0; 0; 0; 0; 1]%nat (placeInit 3 exWork) = Done s /\ placeDone s /\ psGh s 0 = [9; 6; 3] /\ psGh s 1 = [5; 4; 0].
Proof.
  split.
  { intros h. unfold masksOf, exWork. cbn [concat app]. rewrite !filter_cons, filter_nil. cbn [fst]. destruct (decide (0 = h)) as [<-|]; [rewrite !decide_False by done; cbn; lia|]. destruct (decide (1 = h)); cbn; lia. }
  split; [cbn [atOnce]; repeat (split; [by vm_compute|]; match goal with |- match ?p with _ => _ end => let q := eval lazy in p in change p with q; cbv iota end); done|].
  eexists. split; [by apply runOk_run; vm_compute|]. split; [apply doneCheck; by vm_compute|]. by vm_compute.
Qed.

(** * C171: the places of the masks and the sender's other items *)

(** The two sets of the sender have the item [y] in common (say with the receiver) and differ in another. The mask of [y] stands in the second place for the one and in
    the first for the other, whatever the keys and polynomials. *)
Theorem C171_place_refuted : exists (enc : N -> N) m S S' (y : N), NoDup S /\ NoDup S' /\ length S = length S' /\ y ∈ S /\ y ∈ S' /\ forall P F pol,
  (exists a, placed P F enc m pol S 0 a) /\ (exists a, placed P F enc m pol S' 0 a) /\
  (forall a, placed P F enc m pol S 0 a -> a !! 1%nat = sendHashes P F enc m pol [y] 0 !! 0%nat) /\
  (forall a, placed P F enc m pol S' 0 a -> a !! 0%nat = sendHashes P F enc m pol [y] 0 !! 0%nat).
Proof. exact place_seen. Qed.
Print Assumptions C171_place_refuted.

(** The place of an item's mask follows from the bins of the items alone. *)
Theorem C171_order_partial enc m h S : 0 < m < 2 ^ 64 -> h = 0 \/ h = 1 ->
  exists p, p ≡ₚ seq 0 (length S) /\ forall S', map (itemBinH enc m h) S' = map (itemBinH enc m h) S ->
    forall P F pol a, placed P F enc m pol S' h a -> a = omap (fun i => sendHashes P F enc m pol S' h !! i) p.
Proof. exact (place_order enc m h S). Qed.
Print Assumptions C171_order_partial.

(** Two sets with the same bins; the masks of the second and the fourth item come first. *)
Example C171_example : map (itemBinH (fun x => x) 5 0) [13; 5; 8; 10] = map (itemBinH (fun x => x) 5 0) [3; 25; 28; 15] /\ map (itemBinH (fun x => x) 5 0) [3; 25; 28; 15] = [3; 0; 3; 0]%nat /\
  forall P F pol, exists a, placed P F (fun x => x) 5 pol [13; 5; 8; 10] 0 a.
Proof. split; [by vm_compute|]. split; [by vm_compute|]. intros. by apply placed_ex. Qed.
