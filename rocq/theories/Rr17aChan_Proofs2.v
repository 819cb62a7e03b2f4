(** With several channels every common item of RR17a can be missed. *)
From Verif Require Import Base Partition_Model Dcw_Spec Rr17_Model Rr17_Proofs Rr17a_Model Rr17a_Spec Rr17a_Proofs Rr17aChan_Spec Rr17aChan_Proofs.
Local Open Scope nat_scope.

Lemma first_step (f : nat -> nat) n : f 0 < f n -> (forall p, f p <= f (S p) <= f p + 1) -> exists p, p < n /\ f (S p) = f p + 1.
Proof.
  intros H HS. induction n as [|n IH]; [lia|]. destruct (decide (f 0 < f n)) as [H'|H'].
  - destruct (IH H') as (p & Hp & E). exists p. split; [lia|done].
  - exists n. split; [lia|]. pose proof (HS n). assert (f 0 <= f n) as L; [|lia]. clear -HS. induction n as [|n IH]; [lia|]. pose proof (HS n). lia.
Qed.
Lemma mod_next a T : 2 <= T -> a mod T <> (a + 1) mod T.
Proof.
  intros HT E. pose proof (Nat.div_mod a T ltac:(lia)) as E1. pose proof (Nat.div_mod (a + 1) T ltac:(lia)) as E2. rewrite <- E in E2.
  assert (T * ((a + 1) / T) = T * (a / T) + 1) as E3 by lia. assert ((T * (a / T) + 1) mod T = 0) as E4 by (rewrite <- E3, Nat.mul_comm; apply Nat.mod_mul; lia).
  rewrite Nat.add_comm, Nat.mul_comm, Nat.mod_add, Nat.mod_small in E4 by lia. lia.
Qed.
Lemma rotation n k p : k < n -> p < n -> exists perm, perm ≡ₚ seq 0 n /\ perm !! k = Some p.
Proof.
  intros Hk Hp. destruct (decide (k <= p)) as [H|H].
  - exists (drop (p - k) (seq 0 n) ++ take (p - k) (seq 0 n)). split; [rewrite (Permutation_app_comm (drop _ _)); by rewrite take_drop|].
    rewrite lookup_app_l by (rewrite drop_length, seq_length; lia). rewrite lookup_drop, lookup_seq_lt by lia. f_equal. lia.
  - exists (drop (n - (k - p)) (seq 0 n) ++ take (n - (k - p)) (seq 0 n)). split; [rewrite (Permutation_app_comm (drop _ _)); by rewrite take_drop|].
    rewrite lookup_app_r by (rewrite drop_length, seq_length; lia). rewrite drop_length, seq_length, lookup_take by lia. rewrite lookup_seq_lt by lia. f_equal. lia.
Qed.
Lemma other_channel n cap T col t : 2 <= T -> 2 * T <= n -> 0 < cap -> (N.of_nat cap <= 2 ^ 20)%N -> exists p, p < n /\ channelOf (n * cap) T (p * cap + col) <> t.
Proof.
  intros HT Hn Hc Hc2. unfold channelOf. set (per := N.to_nat (N.min (2 ^ 20) ((N.of_nat (n * cap) + N.of_nat T - 1) / N.of_nat T))).
  assert (cap <= per) as H1.
  { assert (N.of_nat cap <= N.min (2 ^ 20) ((N.of_nat (n * cap) + N.of_nat T - 1) / N.of_nat T))%N as H; [|unfold per; lia].
    apply N.min_glb; [done|]. apply N.div_le_lower_bound; [lia|]. nia. }
  assert (per <= (n - 1) * cap) as H2.
  { assert (N.min (2 ^ 20) ((N.of_nat (n * cap) + N.of_nat T - 1) / N.of_nat T) <= N.of_nat ((n - 1) * cap))%N as H; [|unfold per; lia].
    etrans; [apply N.le_min_r|]. apply N.lt_succ_r. apply N.div_lt_upper_bound; [lia|].
    assert (n * cap + T - 1 < T * ((n - 1) * cap + 1)) as H; [|lia]. assert (n * cap <= T * ((n - 1) * cap)) as H; [|lia].
    rewrite Nat.mul_assoc. apply Nat.mul_le_mono_r. destruct n as [|n]; [lia|]. cbn [Nat.sub]. rewrite Nat.sub_0_r. nia. }
  clearbody per.
  destruct (first_step (fun p => (p * cap + col) / per) (n - 1)) as (p & Hp & E).
  - cbn [Nat.mul Nat.add]. apply Nat.lt_le_trans with ((col + 1 * per) / per); [rewrite Nat.div_add by lia; lia|]. apply Nat.div_le_mono; lia.
  - intros p. split; [apply Nat.div_le_mono; [lia|]; cbn [Nat.mul]; lia|]. etrans; [apply (Nat.div_le_mono _ (p * cap + col + 1 * per)); [lia|cbn [Nat.mul]; lia]|]. rewrite Nat.div_add by lia. done.
  - cbn beta in E. destruct (decide (((p * cap + col) / per) mod T = t)) as [Ep|Ep]; [|exists p; split; [lia|done]].
    exists (S p). split; [lia|]. rewrite E, <- Ep. intros EE. symmetry in EE. by apply mod_next in EE.
Qed.

Lemma run_miss P rd R S old i j x : paramsOk P R -> paramsOk P S -> randOk P rd -> NoDup R -> NoDup S -> collisionFree P (remove_dups (R ++ S)) ->
  2 <= pT P -> 2 * pT P <= pN P -> (N.of_nat (pCap P) <= 2 ^ 20)%N -> R !! i = Some x -> S !! j = Some x ->
  exists perm new inR inS, perm ≡ₚ seq 0 (pN P) /\ rr17aRun P (withPerm rd perm) R S old = Done (mkResult (old ++ new) inR inS) /\ N.of_nat i ∉ new.
Proof.
  intros HR HS HD ND NDS CF HT Hn Hc Ex Ey. pose proof HR as (_ & Hnb & Hcap & HT0 & _ & Hw & HLR & _). pose proof HS as (_ & _ & _ & _ & _ & _ & HLS & _).
  destruct (run_places P rd R S old HR HS HD ND CF) as (row & col & HB & _ & RUN). assert (j < pN P) as Hj by (apply lookup_lt_Some in Ey; lia). destruct (HB j Hj) as [Hr _].
  destruct (places_exists (pCap P) (pNb P) (pT P) (itemBin P x) HT0 Hw (itemBin_lt P x Hnb)) as (t & base & Hpl & _). apply (places_owns _ _ _ _ _ _ HT0 Hw) in Hpl as [_ HO].
  destruct (other_channel (pN P) (pCap P) (pT P) (col j) t HT Hn Hcap Hc) as (p & Hp & NE). destruct (rotation (pN P) (row j) p Hr Hp) as (perm & HP & Ep).
  destruct (RUN perm HP) as (new & inR & inS & E & _ & HN). exists perm, new, inR, inS. split; [done|]. split; [done|]. rewrite HN. intros (j' & x' & p' & t' & Ex' & Ey' & Ep' & HO' & Hch).
  rewrite Ex in Ex'. injection Ex' as <-. rewrite (NoDup_lookup S j' j x NDS Ey' Ey) in Ep', Hch. rewrite Ep in Ep'. injection Ep' as <-.
  rewrite (owns_unique _ _ _ _ _ HT0 HO' HO) in Hch. done.
Qed.
