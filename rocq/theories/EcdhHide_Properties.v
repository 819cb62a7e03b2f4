(** Property theorems about what the first messages of ECDH show (C215). *)
From Verif Require Import Base Ecdh_Model EcdhHide_Spec EcdhHide_Proofs.

(** One item: for every scalar and every other item exactly one scalar gives the same message. *)
Theorem C215_one_item {P : Type} good key (smul : P -> N -> P) pt enc dec roItem hashSize y y' k : (forall p, dec (enc p) = p) ->
  keysAct good key smul -> oneKey good key smul -> (forall z, good (pt z)) -> key k ->
  (exists k', key k' /\ recvPoint smul pt enc roItem hashSize k' y' = recvPoint smul pt enc roItem hashSize k y /\
    forall k'', key k'' -> recvPoint smul pt enc roItem hashSize k'' y' = recvPoint smul pt enc roItem hashSize k y -> k'' = k') /\
  exists k', key k' /\ sendPoint smul pt enc roItem k' y' = sendPoint smul pt enc roItem k y /\
    forall k'', key k'' -> sendPoint smul pt enc roItem k'' y' = sendPoint smul pt enc roItem k y -> k'' = k'.
Proof. intros Hd HA HO HP Hk. split; exact (one_ok good key smul enc dec Hd _ _ k HA HO (HP _) (HP _) Hk). Qed.
Print Assumptions C215_one_item.

(** Any number of items: some scalar gives the same message for another list exactly when one scalar connects the hashed points of the lists. *)
Theorem C215_ratios {P : Type} good key (smul : P -> N -> P) pt enc dec roItem hashSize R R' k : (forall p, dec (enc p) = p) ->
  keysAct good key smul -> (forall z, good (pt z)) -> key k ->
  ((exists k', key k' /\ map (recvPoint smul pt enc roItem hashSize k') R' = map (recvPoint smul pt enc roItem hashSize k) R) <->
    sameRatios key smul (map (fun y => pt (roItem hashSize y mod 2 ^ 128)) R) (map (fun y => pt (roItem hashSize y mod 2 ^ 128)) R')) /\
  ((exists k', key k' /\ map (sendPoint smul pt enc roItem k') R' = map (sendPoint smul pt enc roItem k) R) <->
    sameRatios key smul (map (fun x => pt (roItem 16%nat x)) R) (map (fun x => pt (roItem 16%nat x)) R')).
Proof.
  intros Hd HA HP Hk. assert (forall (f : N -> N) l, Forall good (map (fun y => pt (f y)) l)) as HF by (intros f l; apply Forall_forall; intros A I; apply elem_of_list_fmap in I as (y & -> & _); apply HP).
  split.
  - pose proof (many_ok good key smul enc dec Hd _ _ k HA (HF (fun y => roItem hashSize y mod 2 ^ 128) R) (HF (fun y => roItem hashSize y mod 2 ^ 128) R') Hk) as Q.
    rewrite map_map in Q. rewrite <- Q. clear Q. apply exist_proper. intros k'. by rewrite map_map.
  - pose proof (many_ok good key smul enc dec Hd _ _ k HA (HF (roItem 16%nat) R) (HF (roItem 16%nat) R') Hk) as Q.
    rewrite map_map in Q. rewrite <- Q. clear Q. apply exist_proper. intros k'. by rewrite map_map.
Qed.
Print Assumptions C215_ratios.

(** The residues 1 to 10 modulo 11 acting on themselves. *)
Definition m11 (A k : N) : N := A * k mod 11.
Definition unit11 (k : N) : Prop := 0 < k < 11.
Definition pt11 (z : N) : N := 1 + z mod 10.
Definition ro11 (len : nat) (z : N) : N := z.
Lemma unit11_list k : unit11 k <-> k ∈ [1; 2; 3; 4; 5; 6; 7; 8; 9; 10].
Proof.
  split; [|intros H; unfold unit11; repeat (apply elem_of_cons in H as [->|H]; [lia|]); by apply elem_of_nil in H].
  intros [H1 H2]. assert (k = 1 \/ k = 2 \/ k = 3 \/ k = 4 \/ k = 5 \/ k = 6 \/ k = 7 \/ k = 8 \/ k = 9 \/ k = 10) as D by lia. rewrite !elem_of_cons. tauto.
Qed.
Lemma act11 : keysAct unit11 unit11 m11.
Proof.
  assert (forall A k, unit11 A -> unit11 k -> unit11 (m11 A k)) as H1.
  { intros A k HA Hk. apply unit11_list in HA, Hk. revert k Hk. revert A HA. setoid_rewrite <- Forall_forall. setoid_rewrite <- Forall_forall.
    repeat constructor; by vm_compute. }
  assert (forall A h k, m11 (m11 A h) k = m11 A (m11 h k)) as H2.
  { intros A h k. unfold m11. rewrite N.mul_mod_idemp_l, N.mul_mod_idemp_r by done. by rewrite N.mul_assoc. }
  split; [done|]. split.
  - intros h k Hh Hk. exists (m11 h k). split; [by apply H1|]. intros A _. apply H2.
  - intros k Hk. assert (exists m, unit11 m /\ m11 k m = 1) as (m & Hm & E).
    { apply unit11_list in Hk. repeat (apply elem_of_cons in Hk as [->|Hk];
        [first [by exists 1|by exists 2|by exists 3|by exists 4|by exists 5|by exists 6|by exists 7|by exists 8|by exists 9|by exists 10]|]). by apply elem_of_nil in Hk. }
    exists m. split; [done|]. intros A HA. rewrite H2, E. unfold m11. rewrite N.mul_1_r. apply N.mod_small. destruct HA; lia.
Qed.
Lemma one11 : oneKey unit11 unit11 m11.
Proof.
  intros A B HA HB. destruct act11 as (H1 & _ & H3). destruct (H3 A HA) as (m & Hm & E).
  assert (m11 A m = 1) as E1. { specialize (E 1 ltac:(done)). unfold m11 in *. rewrite N.mul_1_l in E. by rewrite N.mul_mod_idemp_l in E by done. }
  exists (m11 m B). split; [by apply H1|]. split.
  - unfold m11 in *. rewrite N.mul_mod_idemp_r, N.mul_assoc, <- N.mul_mod_idemp_l, E1 by done. rewrite N.mul_1_l. apply N.mod_small. destruct HB; lia.
  - intros k' Hk' <-. unfold m11 in *. rewrite N.mul_mod_idemp_r, N.mul_assoc, (N.mul_comm m A), <- N.mul_mod_idemp_l, E1 by done. rewrite N.mul_1_l. symmetry. apply N.mod_small. destruct Hk'; lia.
Qed.

(** Three items: the messages of [0, 1, 3] and [0, 1, 4] never coincide, in whatever order. *)
Theorem C215_ratios_show : exists good key (smul : N -> N -> N) pt enc dec roItem hashSize R R', (forall p : N, dec (enc p) = p) /\ keysAct good key smul /\ oneKey good key smul /\
  (forall z : N, good (pt z)) /\ length R = length R' /\ NoDup R /\ NoDup R' /\
  forall k k', key k -> key k' -> ~ map (recvPoint smul pt enc roItem hashSize k') R' ≡ₚ map (recvPoint smul pt enc roItem hashSize k) R.
Proof.
  exists unit11, unit11, m11, pt11, id, id, ro11, 20%nat, [0; 1; 3], [0; 1; 4]. split; [done|]. split; [exact act11|]. split; [exact one11|]. split.
  { intros z. unfold unit11, pt11. pose proof (N.mod_lt z 10 ltac:(done)). lia. }
  split; [done|]. split; [apply (bool_decide_eq_true_1 _); by vm_compute|]. split; [apply (bool_decide_eq_true_1 _); by vm_compute|].
  intros k k' Hk Hk' HP. apply unit11_list in Hk, Hk'.
  assert (Forall (fun k => Forall (fun k' => forallb (fun v => bool_decide (v ∈ map (recvPoint m11 pt11 id ro11 20 k) [0; 1; 3])) (map (recvPoint m11 pt11 id ro11 20 k') [0; 1; 4]) = false)
    [1; 2; 3; 4; 5; 6; 7; 8; 9; 10]) [1; 2; 3; 4; 5; 6; 7; 8; 9; 10]) as HF by (repeat constructor; by vm_compute).
  rewrite Forall_forall in HF. specialize (HF k Hk). rewrite Forall_forall in HF. specialize (HF k' Hk'). apply not_true_iff_false in HF. apply HF.
  apply forallb_forall. intros v Hv. apply bool_decide_eq_true_2. rewrite <- HP. by apply elem_of_list_In.
Qed.
Print Assumptions C215_ratios_show.
(** The lists [[0; 1]] and [[1; 3]] hash to the points 1, 2 and 2, 4: the same message under the scalars 8 and 4. *)
Example C215_example : keysAct unit11 unit11 m11 /\ oneKey unit11 unit11 m11 /\ sameRatios unit11 m11 (map pt11 [0; 1]) (map pt11 [1; 3]) /\
  map (recvPoint m11 pt11 id ro11 20 8) [0; 1] = [8; 5] /\ map (recvPoint m11 pt11 id ro11 20 4) [1; 3] = [8; 5].
Proof. split; [exact act11|]. split; [exact one11|]. split; [exists 6; split; [by vm_compute|by vm_compute]|]. split; by vm_compute. Qed.
