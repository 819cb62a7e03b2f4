From Coq Require Import Reals.
From Verif Require Import Base BinProb_Spec BinProb_Proofs Masks_Model Masks_Spec Masks_Proofs.
From Coq Require Import Lra.
Local Open Scope N_scope.

Lemma pairs_length {A C} (g : nat -> A -> C) l own : length (concat (map (fun i => map (g i) own) l)) = (length l * length own)%nat.
Proof. induction l as [|i l IH]; [done|]. cbn [map concat length]. rewrite app_length, map_length, IH. lia. Qed.
Lemma allPairs_length m own : length (allPairs m own) = (m * length own)%nat.
Proof. unfold allPairs. etransitivity; [exact (pairs_length (fun i v => (i, v) : comparison) _ _)|]. by rewrite seq_length. Qed.
Lemma tablePairs_length h m own : length (tablePairs h m own) = (m * length own)%nat.
Proof. unfold tablePairs. etransitivity; [exact (pairs_length (fun i o => (h * i + o.1, o.2)%nat : comparison) _ _)|]. by rewrite seq_length. Qed.
Lemma elem_allPairs m own j v : (j, v) ∈ allPairs m own <-> (j < m)%nat /\ v ∈ own.
Proof.
  unfold allPairs. rewrite elem_of_list_In, in_concat. split.
  - intros (l & Hl & Hf). apply in_map_iff in Hl as (i & <- & Hi%in_seq). apply in_map_iff in Hf as (w & E & Hw). injection E as -> ->. split; [lia|by apply elem_of_list_In].
  - intros [Hj Hv]. exists (map (fun v => (j, v)) own). split; apply in_map_iff; [exists j|exists v]; (split; [done|]); [apply in_seq; lia|by apply elem_of_list_In].
Qed.
Lemma allPairs_NoDup m own : NoDup own -> NoDup (allPairs m own).
Proof.
  intros Ho. unfold allPairs. generalize (NoDup_seq 0 m). generalize (seq 0 m). intros l Hl. induction Hl as [|i l Hi Hl IH]; cbn [map concat]; [constructor|].
  apply NoDup_app. split; [|split; [|done]].
  - change (map (fun v => (i, v)) own) with ((fun v => (i, v)) <$> own). apply NoDup_fmap; [|done]. intros ?? E. by injection E.
  - intros [j v] H1 H2. apply elem_of_list_In, in_map_iff in H1 as (w & E & _). injection E as <- <-.
    apply elem_of_list_In, in_concat in H2 as (l' & Hl' & Hf). apply in_map_iff in Hl' as (i' & <- & Hi'). apply in_map_iff in Hf as (w' & E & _). injection E as -> _. apply Hi. by apply elem_of_list_In.
Qed.
Lemma tablePairs_NoDup h m own : (0 < h)%nat -> NoDup own -> Forall (fun o => o.1 < h)%nat own -> NoDup (tablePairs h m own).
Proof.
  intros Hh Ho Hb. rewrite Forall_forall in Hb. unfold tablePairs. generalize (NoDup_seq 0 m). generalize (seq 0 m). intros l Hl. induction Hl as [|i l Hi Hl IH]; cbn [map concat]; [constructor|].
  apply NoDup_app. split; [|split; [|done]].
  - change (map (fun o => (h * i + o.1, o.2)%nat) own) with ((fun o => (h * i + o.1, o.2)%nat) <$> own). apply NoDup_fmap; [|done]. intros [a1 a2] [b1 b2] E. injection E as E1 E2. cbn in *. f_equal; lia.
  - intros [j v] H1 H2. apply elem_of_list_In, in_map_iff in H1 as ([k w] & E & Hk). injection E as <- <-. apply elem_of_list_In, Hb in Hk.
    apply elem_of_list_In, in_concat in H2 as (l' & Hl' & Hf). apply in_map_iff in Hl' as (i' & <- & Hi'). apply in_map_iff in Hf as ([k' w'] & E & Hk'). injection E as E _. apply elem_of_list_In, Hb in Hk'. cbn in *.
    apply Hi. assert (i = i') as ->; [|by apply elem_of_list_In]. nia.
Qed.
Lemma elem_tablePairs h m own j v : (j, v) ∈ tablePairs h m own -> exists i o, (i < m)%nat /\ o ∈ own /\ j = (h * i + o.1)%nat /\ v = o.2.
Proof.
  unfold tablePairs. rewrite elem_of_list_In, in_concat. intros (l & Hl & Hf). apply in_map_iff in Hl as (i & <- & Hi%in_seq). apply in_map_iff in Hf as (w & E & Hw). injection E as <- <-.
  exists i, w. split_and!; [lia|by apply elem_of_list_In|done|done].
Qed.

(** ** Lengths by the binary logarithm *)
Lemma maskValues_N b : N.of_nat (maskValues b) = 2 ^ (8 * b).
Proof. unfold maskValues. by rewrite N2Nat.id. Qed.
Lemma maskValues_pos b : (0 < maskValues b)%nat.
Proof. unfold maskValues. assert (2 ^ (8 * b) <> 0) by (by apply N.pow_nonzero). lia. Qed.
Lemma log2Bytes_enough s x b : log2Bytes s x = Done b -> x * 2 ^ s <= 2 * 2 ^ (8 * b).
Proof.
  unfold log2Bytes. destruct (N.eqb_spec x 0) as [|Hx]; [done|]. intros E. injection E as <-.
  destruct (N.log2_spec x ltac:(lia)) as [_ H]. set (a := N.log2 x) in *. clearbody a.
  assert (2 ^ (s + a) <= 2 ^ (8 * ((s + a + 7) / 8))) as H2 by (apply N.pow_le_mono_r; lia).
  rewrite N.pow_add_r in H2. rewrite N.pow_succ_r' in H. set (u := 2 ^ a) in *. set (w := 2 ^ s) in *. set (z := 2 ^ (8 * ((s + a + 7) / 8))) in *. clearbody u w z. nia.
Qed.
Lemma tables_bound h s x b nS nR own : log2Bytes s x = Done b -> x = N.of_nat nS * N.of_nat nR -> length own = nR ->
  chance_le (maskValues b) (h * nS) (tablePairs h nS own) 2 (2 ^ s).
Proof.
  intros Hb Hx Ho. apply chance_upper; [apply maskValues_pos|]. rewrite tablePairs_length, maskValues_N, Ho. rewrite Nat2N.inj_mul, <- Hx. by apply log2Bytes_enough.
Qed.
Lemma all_bound s x b nS nR own : log2Bytes s x = Done b -> x = N.of_nat nS * N.of_nat nR -> length own = nR ->
  chance_le (maskValues b) nS (allPairs nS own) 2 (2 ^ s).
Proof.
  intros Hb Hx Ho. apply chance_upper; [apply maskValues_pos|]. rewrite allPairs_length, maskValues_N, Ho. rewrite Nat2N.inj_mul, <- Hx. by apply log2Bytes_enough.
Qed.
Lemma all_exceeds b nS own s : NoDup own -> Forall (fun v => v < maskValues b)%nat own ->
  2 ^ (8 * b) + N.of_nat nS * N.of_nat (length own) < N.of_nat nS * N.of_nat (length own) * 2 ^ s ->
  chance_gt (maskValues b) nS (allPairs nS own) 1 (2 ^ s).
Proof.
  intros Hd Hv H. apply chance_lower; [apply maskValues_pos|by apply allPairs_NoDup| |].
  - apply Forall_forall. intros [j v] [Hj Hin]%elem_allPairs. rewrite Forall_forall in Hv. split; [done|by apply Hv].
  - rewrite allPairs_length, maskValues_N, Nat2N.inj_mul. lia.
Qed.
Lemma tables_exceeds h b nS own s : (0 < h)%nat -> NoDup own -> Forall (fun o => o.1 < h /\ o.2 < maskValues b)%nat own ->
  2 ^ (8 * b) + N.of_nat nS * N.of_nat (length own) < N.of_nat nS * N.of_nat (length own) * 2 ^ s ->
  chance_gt (maskValues b) (h * nS) (tablePairs h nS own) 1 (2 ^ s).
Proof.
  intros Hh Hd Hv H. rewrite Forall_forall in Hv. apply chance_lower; [apply maskValues_pos|apply tablePairs_NoDup; [done|done|]| |].
  - apply Forall_forall. intros o Ho. by apply Hv.
  - apply Forall_forall. intros [j v] (i & o & Hi & Ho & -> & ->)%elem_tablePairs. apply Hv in Ho as [H1 H2]. cbn. split; [nia|done].
  - rewrite tablePairs_length, maskValues_N, Nat2N.inj_mul. lia.
Qed.
(** Lists of distinct masks for the witnesses. *)
Lemma seq_masks b n : n <= 2 ^ (8 * b) -> Forall (fun v => v < maskValues b)%nat (seq 0 (N.to_nat n)).
Proof. intros H. apply Forall_forall. intros v Hv%elem_of_seq. unfold maskValues. lia. Qed.
