From Verif Require Import Base File_Model File_Spec File_Proofs FilePsi_Model FilePsi_Spec FilePsi_Proofs.

Lemma hexRow_is r : hexRow r <-> IsHexRow r.
Proof.
  unfold hexRow, IsHexRow. split; intros [L F]; (split; [exact L|]); (eapply Forall_impl; [exact F|]); intros c; unfold isxdigit, hexVal; cbn beta.
  - repeat case_match; try discriminate; try reflexivity; lia.
  - repeat case_match; try discriminate; lia.
Qed.
Lemma read_debug ro f ft d l : readSet ro f ft d = Done l -> readSet ro f ft false = Done l.
Proof.
  destruct d; [|done]. rewrite readSet_debug. destruct (readSet ro f ft false) as [s| | |]; try discriminate. destruct (decide (NoDup s)); [done|discriminate].
Qed.

Lemma rows_items ro rows1 rows2 d1 d2 S R :
  Forall (fun r => 10 ∉ r) rows1 -> Forall (fun r => 10 ∉ r) rows2 -> oracleGood ro (rows1 ++ rows2) ->
  readSet ro (unlines rows1) Csv d1 = Done S -> readSet ro (unlines rows2) Csv d2 = Done R ->
  length S = length rows1 /\ length R = length rows2 /\
  forall i, (exists x, R !! i = Some x /\ x ∈ S) <-> exists r r', rows2 !! i = Some r /\ r' ∈ rows1 /\ sameRow r r'.
Proof.
  intros F1 F2 G E1 E2. apply read_debug in E1, E2.
  destruct (readSet_csv ro rows1 F1) as (b1 & X1 & H1 & _). destruct (readSet_csv ro rows2 F2) as (b2 & X2 & H2 & _).
  rewrite E1 in X1. rewrite E2 in X2. injection X1 as <-. injection X2 as <-.
  split; [symmetry; exact (Forall2_length _ _ _ H1)|]. split; [symmetry; exact (Forall2_length _ _ _ H2)|].
  assert (forall r r' x x', r ∈ rows2 -> r' ∈ rows1 -> RowBlock ro r x -> RowBlock ro r' x' -> (x = x' <-> sameRow r r')) as K.
  { intros r r' x x' Hr Hr' B B'. unfold RowBlock in B, B'.
    assert (r ∈ rows1 ++ rows2) as A by (apply elem_of_app; by right). assert (r' ∈ rows1 ++ rows2) as A' by (apply elem_of_app; by left).
    destruct (decide (IsHexRow r)) as [h|h], (decide (IsHexRow r')) as [h'|h'].
    - destruct B as [B T], B' as [B' T']. split.
      + intros <-. right. rewrite !hexRow_is. split; [done|]. split; [done|]. by rewrite <- T, <- T'.
      + intros [<-|(_ & _ & Hl)]; apply blockText_inj; congruence.
    - rewrite B'. split.
      + intros ->. rewrite <- hexRow_is in h, h'. destruct (G r' r A' A h') as [_ Z]. destruct B as [B T]. by destruct (Z h _ B T).
      + intros [<-|(_ & X & _)]; [done|]. by rewrite hexRow_is in X.
    - rewrite B. split.
      + intros X. rewrite <- hexRow_is in h, h'. destruct (G r r' A A' h) as [_ Z]. destruct B' as [B' T]. by destruct (Z h' _ B' T).
      + intros [<-|(X & _)]; [done|]. by rewrite hexRow_is in X.
    - rewrite B, B'. split.
      + intros X. left. rewrite <- hexRow_is in h, h'. destruct (G r r' A A' h) as [Z _]. by apply Z.
      + intros [->|(X & _)]; [done|]. by rewrite hexRow_is in X. }
  intros i. split.
  - intros (x & Hx & Hs). destruct (Forall2_lookup_r _ _ _ _ _ H2 Hx) as (r & Hr & B). apply elem_of_list_lookup in Hs as (j & Hj).
    destruct (Forall2_lookup_r _ _ _ _ _ H1 Hj) as (r' & Hr' & B'). exists r, r'. split; [done|].
    assert (r' ∈ rows1) as M by (by apply elem_of_list_lookup_2 in Hr'). split; [done|].
    apply (K r r' x x); [by apply elem_of_list_lookup_2 in Hr|done|done|done|done].
  - intros (r & r' & Hr & Hr' & Sm). destruct (Forall2_lookup_l _ _ _ _ _ H2 Hr) as (x & Hx & B). apply elem_of_list_lookup in Hr' as (j & Hj).
    destruct (Forall2_lookup_l _ _ _ _ _ H1 Hj) as (x' & Hx' & B'). exists x. split; [done|].
    assert (x = x') as -> by (apply (K r r' x x'); [by apply elem_of_list_lookup_2 in Hr|by apply elem_of_list_lookup_2 in Hj|done|done|done]).
    by apply elem_of_list_lookup_2 in Hx'.
Qed.

Lemma readBlocks_lookup n : forall f i, readBlocks n f !! i = if decide (i < n)%nat then Some (leBytes (take 16 (drop (16 * i) f))) else None.
Proof.
  induction n as [|n IH]; intros f i; cbn [readBlocks]; [by destruct i|]. destruct i as [|i].
  - cbn [lookup list_lookup]. rewrite decide_True by lia. by rewrite Nat.mul_0_r, drop_0.
  - cbn [lookup list_lookup]. change (readBlocks n (drop 16 f) !! i = if decide (S i < S n)%nat then Some (leBytes (take 16 (drop (16 * S i) f))) else None).
    rewrite IH, drop_drop. replace (16 + 16 * i)%nat with (16 * S i)%nat by lia. destruct (decide (i < n)%nat), (decide (S i < S n)%nat); done || lia.
Qed.
Lemma slice_inj f1 f2 i j : Forall (fun b => b < 256) f1 -> Forall (fun b => b < 256) f2 -> (16 * i + 16 <= length f1)%nat -> (16 * j + 16 <= length f2)%nat ->
  leBytes (take 16 (drop (16 * i) f1)) = leBytes (take 16 (drop (16 * j) f2)) -> take 16 (drop (16 * i) f1) = take 16 (drop (16 * j) f2).
Proof.
  intros F1 F2 L1 L2 E.
  assert (Forall (fun b => b < 256) (take 16 (drop (16 * i) f1))) as G1 by (by apply Forall_take, Forall_drop).
  assert (Forall (fun b => b < 256) (take 16 (drop (16 * j) f2))) as G2 by (by apply Forall_take, Forall_drop).
  assert (length (take 16 (drop (16 * i) f1)) = 16%nat) as K1 by (rewrite take_length, drop_length; lia).
  assert (length (take 16 (drop (16 * j) f2)) = 16%nat) as K2 by (rewrite take_length, drop_length; lia).
  apply bytesLE_leBytes in G1 as [G1 _], G2 as [G2 _]. rewrite K1 in G1. rewrite K2 in G2. rewrite <- G1, <- G2. by rewrite E.
Qed.
Lemma slices_items ro f1 f2 d1 d2 S R : Forall (fun b => b < 256) f1 -> Forall (fun b => b < 256) f2 ->
  readSet ro f1 Bin d1 = Done S -> readSet ro f2 Bin d2 = Done R ->
  length f1 = (16 * length S)%nat /\ length f2 = (16 * length R)%nat /\
  forall i, (exists x, R !! i = Some x /\ x ∈ S) <-> (i < length R)%nat /\ exists j, (j < length S)%nat /\ take 16 (drop (16 * i) f2) = take 16 (drop (16 * j) f1).
Proof.
  intros F1 F2 E1 E2. apply read_debug in E1, E2. unfold readSet in E1, E2. cbn [andb] in E1, E2.
  destruct (Nat.eqb_spec (length f1 mod 16) 0) as [M1|]; [|done]. destruct (Nat.eqb_spec (length f2 mod 16) 0) as [M2|]; [|done].
  assert (S = readBlocks (length f1 / 16)%nat f1) as -> by congruence. assert (R = readBlocks (length f2 / 16)%nat f2) as -> by congruence.
  assert (forall f, length f mod 16 = 0 -> length (readBlocks (length f / 16) f) = length f / 16 /\ length f = 16 * (length f / 16))%nat as K.
  { intros f M. split; [|apply Nat.div_exact; [done|exact M]]. generalize (length f / 16)%nat. clear. intros n. revert f. induction n as [|n IH]; intros f; [done|]. cbn [readBlocks length]. by rewrite IH. }
  destruct (K f1 M1) as [K1 D1], (K f2 M2) as [K2 D2]. rewrite K1, K2. split; [exact D1|]. split; [exact D2|].
  set (n1 := (length f1 / 16)%nat) in *. set (n2 := (length f2 / 16)%nat) in *. intros i. split.
  - intros (x & Hx & Hs). rewrite readBlocks_lookup in Hx. destruct (decide (i < n2)%nat) as [Li|]; [|done]. injection Hx as <-. split; [exact Li|].
    apply elem_of_list_lookup in Hs as (j & Hj). rewrite readBlocks_lookup in Hj. destruct (decide (j < n1)%nat) as [Lj|]; [|done]. injection Hj as Hj.
    exists j. split; [done|]. symmetry. apply slice_inj; [done|done|lia|lia|done].
  - intros (Li & j & Lj & Ej). exists (leBytes (take 16 (drop (16 * i) f2))). rewrite readBlocks_lookup, decide_True by done. split; [done|].
    apply elem_of_list_lookup. exists j. rewrite readBlocks_lookup, decide_True by done. by rewrite Ej.
Qed.
