(** Proofs about the hashing of both parties of PRTY. *)
From Verif Require Import Base CuckooIndex_Spec SimpleIndex_Model SimpleIndex_Spec SimpleIndex_Proofs Balanced_Model Balanced_Spec Balanced_Proofs
  PrtyHash_Model.

(** An item whose three windows are not divisible by [m]. *)
Definition strayItem (m : N) : N := if N.even m then 1 + 2 ^ 16 + 2 ^ 32 else 2 ^ 48.

Lemma gcd_two m : 2 <= m -> N.even m = false -> N.gcd m 2 = 1.
Proof.
  intros Hm Ho. pose proof (N.gcd_divide_r m 2) as D2. pose proof (N.gcd_divide_l m 2) as D1.
  assert (N.gcd m 2 <= 2) by (apply N.divide_pos_le; [lia|done]).
  assert (N.gcd m 2 <> 0) by (intros Z; apply N.gcd_eq_0_r in Z; lia).
  assert (N.gcd m 2 <> 2); [|lia]. intros Z. rewrite Z in D1. destruct D1 as [q ->].
  rewrite N.even_mul in Ho. by rewrite orb_true_r in Ho.
Qed.
Lemma pow2_divide m k : N.gcd m 2 = 1 -> (m | 2 ^ k)%N -> (m | 1)%N.
Proof.
  intros G. induction k as [|k IH] using N.peano_ind; [done|]. rewrite N.pow_succ_r'. intros D. apply IH. by apply (N.gauss _ 2).
Qed.
Lemma pow2_mod m k : 2 <= m -> N.even m = false -> 2 ^ k mod m <> 0.
Proof.
  intros Hm Ho E. apply N.mod_divide in E; [|lia]. apply (pow2_divide m k (gcd_two m Hm Ho)) in E. apply N.divide_1_r in E. lia.
Qed.
Lemma odd_mod m v : 2 <= m -> N.even m = true -> N.even v = false -> v mod m <> 0.
Proof.
  intros Hm He Hv E. apply N.mod_divide in E; [|lia]. destruct E as [q ->]. by rewrite N.even_mul, He, orb_true_r in Hv.
Qed.

Lemma stray_windows m h : 2 <= m -> h < 3 -> ~ mapsTo m (strayItem m) h 0.
Proof.
  intros Hm Hh Q. unfold mapsTo, strayItem in Q. symmetry in Q. revert Q. assert (C : h = 0 \/ h = 1 \/ h = 2) by lia.
  destruct (N.even m) eqn:E.
  - apply odd_mod; [exact Hm|exact E|]. destruct C as [C|[C|C]]; subst h; vm_compute; reflexivity.
  - destruct C as [C|[C|C]]; subst h.
    + replace (2 ^ 48 / 2 ^ (16 * 0) mod 2 ^ 64) with (2 ^ 48) by (vm_compute; reflexivity). exact (pow2_mod m 48 Hm E).
    + replace (2 ^ 48 / 2 ^ (16 * 1) mod 2 ^ 64) with (2 ^ 32) by (vm_compute; reflexivity). exact (pow2_mod m 32 Hm E).
    + replace (2 ^ 48 / 2 ^ (16 * 2) mod 2 ^ 64) with (2 ^ 16) by (vm_compute; reflexivity). exact (pow2_mod m 16 Hm E).
Qed.

Lemma stray_block m : strayItem m < 2 ^ 128.
Proof. unfold strayItem. destruct (N.even m); reflexivity. Qed.

(** Exclusive or with a block: the same permutation of the blocks for every key. *)
Definition xorCipher (a : N) (_ x : N) : N := N.lxor x a.

Lemma stray_sender m n mx cc s : 2 <= m -> m < 2 ^ 64 ->
  prtySendBins (xorCipher (strayItem m)) cc m n mx [strayItem m] = Done s -> binEntries s 0 = [].
Proof.
  intros Hm H64 R. assert (H0 : 0 < m) by lia. assert (H1 : N.of_nat (length [strayItem m]) <= 2 ^ 56) by (vm_compute; discriminate).
  destruct (simple3 (xorCipher (strayItem m) cc) m n mx [strayItem m] s H0 H64 H1 R) as [A _]. clear H64 R.
  destruct (A 0%nat) as [_ B]. destruct (binEntries s 0) as [|[[i h] c] l] eqn:E; [done|exfalso].
  assert (I : (i, h, c) ∈ ((i, h, c) :: l)) by apply elem_of_list_here.
  apply B in I as (x & Hx & Hi & Hh & M & _). cbn [length] in Hi. change (1 / 8)%nat with 0%nat in Hi.
  assert (N.to_nat i = 0%nat) as E0 by lia. rewrite E0 in Hx. injection Hx as <-. revert M.
  unfold xorCipher. rewrite N.lxor_nilpotent, N.lxor_0_l. by apply stray_windows.
Qed.

Lemma stray_receiver m ord ys rs out b l it : anyOrder ord -> m = binCount (N.of_nat (length ys)) 40 1 ->
  prtyRecvBins (xorCipher (strayItem m)) ord ys rs = Done out -> out !! b = Some l -> it ∈ l -> ys !! it.2 = Some (strayItem m) -> b = 0%nat.
Proof.
  intros HO Hm R Hb Hi Hx. unfold prtyRecvBins in R.
  destruct (balanced_ok ord (xorCipher (strayItem m) balancedKey) recvMaxBinSize recvNumDummies ys rs HO) as [Q|(out' & Q & _ & _ & _ & P)];
    [reflexivity|reflexivity|by rewrite R in Q|]. rewrite R in Q. injection Q as <-.
  destruct (P b l it Hb Hi) as (x & h & Hx' & Hh & E). rewrite Hx in Hx'. injection Hx' as <-.
  assert (Z : itemBin (xorCipher (strayItem m) balancedKey) (binCount (N.of_nat (length ys)) recvMaxBinSize recvNumDummies) (strayItem m) h = 0); [|lia].
  unfold itemBin, xorCipher. rewrite N.lxor_nilpotent. rewrite N.div_0_l by (apply N.pow_nonzero; lia).
  change (0 mod 2 ^ 64) with 0. apply N.mod_0_l. unfold binCount. lia.
Qed.

Lemma one_bin aes cc n mx ord xs ys rs s out i x : anyOrder ord -> (length ys < 39)%nat -> N.of_nat (length xs) <= 2 ^ 56 ->
  prtySendBins aes cc 1 n mx xs = Done s -> prtyRecvBins aes ord ys rs = Done out ->
  xs !! i = Some x -> (i < 8 * (length xs / 8) + 1)%nat -> x ∈ ys ->
  exists l it h c, out !! 0%nat = Some l /\ it ∈ l /\ ys !! it.2 = Some x /\ (N.of_nat i, h, c) ∈ binEntries s 0.
Proof.
  intros HO Hy Hn RS RR Hx Hi Hin.
  assert (H0 : 0 < 1) by reflexivity. assert (H64 : 1 < 2 ^ 64) by reflexivity.
  destruct (simple3 (aes cc) 1 n mx xs s H0 H64 Hn RS) as [A _]. destruct (A 0%nat) as [_ B]. clear RS.
  destruct (balanced_ok ord (aes balancedKey) recvMaxBinSize recvNumDummies ys rs HO) as [Q|(out' & Q & L & _ & P & _)];
    [reflexivity|reflexivity|by unfold prtyRecvBins in RR; rewrite RR in Q|]. unfold prtyRecvBins in RR. rewrite RR in Q. injection Q as <-.
  assert (C1 : binCount (N.of_nat (length ys)) recvMaxBinSize recvNumDummies = 1).
  { unfold binCount, recvMaxBinSize, recvNumDummies. rewrite N.div_small; lia. }
  rewrite C1 in L. destruct out as [|l [|? ?]]; [cbn in L; lia| |cbn [length] in L; lia].
  apply elem_of_list_lookup in Hin as [k Hk]. unfold allPlaced in P. cbn [concat] in P. rewrite app_nil_r in P.
  assert (K : k ∈ map snd l). { rewrite P. apply elem_of_seq. apply lookup_lt_Some in Hk. lia. }
  apply elem_of_list_fmap in K as (it & Ek & Hit).
  exists l, it, 0, false. split; [done|]. split; [done|]. split; [by rewrite <-Ek|].
  apply B. exists x. rewrite Nat2N.id. split; [done|]. split; [done|]. split; [lia|]. split.
  - unfold mapsTo. by rewrite N.mod_1_r.
  - split; [done|]. intros (h' & b & Hh & _). lia.
Qed.
