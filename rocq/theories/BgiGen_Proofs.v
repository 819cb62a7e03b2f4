(** [FullDomainGenerator]. *)
From Verif Require Import Base Bgi_Model Bgi_Spec Bgi_Proofs BgiFull_Proofs BgiSum_Proofs.

Section gen.
Context (aes : bool -> N -> N) (k0 : N) (cws g : list N).
Hypothesis Hg : g ≠ [].
Local Notation L := (length g * 128)%nat.
Local Notation k := (k0 :: cws).

(** Chunk of leaf [x]. *)
Definition leafChunk (x : N) : N * list N := (x * N.of_nat (length g * 128), evBytes aes k0 cws g x).

Lemma leafBytes_ev x : leafBytes aes (traverse aes k0 cws x) g = evBytes aes k0 cws g x.
Proof using. clear Hg. rewrite leafBytes_imap. unfold evBytes. apply map_ext. intros i. do 2 f_equal. lia. Qed.

Lemma spread_app c1 c2 : spread (c1 ++ c2) = spread c1 ++ spread c2.
Proof using. clear Hg. unfold spread. by rewrite map_app, concat_app. Qed.

Lemma spread_leaf (x : N) : spread [leafChunk x] =
  map (fun p => (p, bit2N (evalBit aes k g p))) (map (fun i => N.of_nat (N.to_nat x * L + i)) (seq 0 L)).
Proof using.
  clear Hg. unfold spread. cbn [map concat leafChunk fst snd]. rewrite app_nil_r. unfold evBytes.
  apply list_eq. intros i. rewrite list_lookup_imap. destruct (decide (i < L)%nat) as [H|H].
  - rewrite map_map, !lookup_map_seq by done. cbn.
    replace (x * N.of_nat L + N.of_nat i) with (N.of_nat (N.to_nat x * L + i)) by lia. done.
  - rewrite !lookup_ge_None_2; [done| |]; rewrite ?map_length, seq_length; lia.
Qed.

Lemma spread_leaves {A} (f : A -> N) (l : list A) : spread (map (fun a => leafChunk (f a)) l) =
  map (fun p => (p, bit2N (evalBit aes k g p))) (concat (map (fun a => map (fun i => N.of_nat (N.to_nat (f a) * L + i)) (seq 0 L)) l)).
Proof using.
  clear Hg. induction l as [|a l IH]; [done|]. rewrite map_cons.
  change (leafChunk (f a) :: ?r) with ([leafChunk (f a)] ++ r). rewrite spread_app, spread_leaf, IH.
  rewrite map_cons, concat_cons, map_app. done.
Qed.

(** Small trees. *)
Lemma drain_small dd de ls prev : (length cws < 3)%nat ->
  prev = map (fun x => traverse aes k0 cws (N.of_nat x)) (seq 0 (2 ^ length cws)) ->
  forall n x fuel, (x + n = 2 ^ length cws)%nat -> (n <= fuel)%nat ->
  drain aes fuel (mkGen k g prev (0 <? n)%nat (N.of_nat x) dd de ls) =
  Done (mkGen k g prev false (N.of_nat (2 ^ length cws)) dd de ls, map (fun x => leafChunk (N.of_nat x)) (seq x n)).
Proof using.
  clear Hg. intros Hs Hp. assert (length prev = 2 ^ length cws)%nat as Lp by (by rewrite Hp, map_length, seq_length).
  induction n as [|n IH]; intros x fuel Hx Hf.
  - assert (x = 2 ^ length cws)%nat as -> by lia. destruct fuel; done.
  - destruct fuel as [|f]; [lia|]. cbn [drain gnHasMore]. destruct (Nat.ltb_spec 0 (S n)) as [_|]; [|lia].
    unfold genYield. cbn [gnK gnG gnPrev gnIdx gnD gnDEnd gnLanes length].
    destruct (Nat.ltb_spec (S (length cws) - 1) 3) as [_|]; [|lia].
    rewrite (proj2 (readN_Some prev (N.of_nat x) (traverse aes k0 cws (N.of_nat x)))).
    2:{ rewrite Nat2N.id, Hp. apply (lookup_map_seq (fun x => traverse aes k0 cws (N.of_nat x))). lia. }
    replace (N.of_nat x + 1) with (N.of_nat (S x)) by lia. rewrite Lp.
    assert ((N.of_nat (S x) <? N.of_nat (2 ^ length cws)) = (0 <? n)%nat) as ->.
    { destruct (N.ltb_spec (N.of_nat (S x)) (N.of_nat (2 ^ length cws))), (Nat.ltb_spec 0 n); lia. }
    rewrite IH by lia. rewrite leafBytes_ev. cbn [seq map app]. unfold leafChunk at 2. do 4 f_equal. lia.
Qed.

(** Large trees. *)
Lemma imap_lanes D idx : imap (fun j b => ((N.shiftl (N.of_nat j) D + idx) * (N.of_nat (length g) * 128), b))
    (map (fun j => evBytes aes k0 cws g (N.of_nat j * 2 ^ D + idx)) (seq 0 8))
  = map (fun j => leafChunk (N.of_nat j * 2 ^ D + idx)) (seq 0 8).
Proof using.
  clear Hg. apply list_eq. intros i. rewrite list_lookup_imap. destruct (decide (i < 8)%nat) as [H|H].
  - rewrite !lookup_map_seq by done. cbn. unfold leafChunk. rewrite N.shiftl_mul_pow2. do 2 f_equal. lia.
  - rewrite !lookup_ge_None_2; [done| |]; rewrite ?map_length, seq_length; lia.
Qed.

Lemma drain_big D prev : (length cws = 3 + D)%nat -> N.of_nat D < 2 ^ 64 ->
  forall n idx d ls fuel, (idx + n = N.to_nat (2 ^ N.of_nat D))%nat -> (n <= fuel)%nat ->
  (n ≠ 0%nat -> exists d', d = N.of_nat d' /\ (d' <= D)%nat /\ GoodLanes aes D (roots3 aes k0 cws g) (N.of_nat d') (N.of_nat idx) ls) ->
  exists d' ls', drain aes fuel (mkGen k g prev (0 <? n)%nat (N.of_nat idx) d (N.of_nat D) ls) =
    Done (mkGen k g prev false (2 ^ N.of_nat D) d' (N.of_nat D) ls',
      concat (map (fun idx => map (fun j => leafChunk (N.of_nat j * 2 ^ N.of_nat D + N.of_nat idx)) (seq 0 8)) (seq idx n))).
Proof using Hg.
  intros Hlen HD. induction n as [|n IH]; intros idx d ls fuel Hn Hf Hgood.
  - replace (N.of_nat idx) with (2 ^ N.of_nat D) by lia. exists d, ls. destruct fuel; done.
  - destruct fuel as [|f]; [lia|]. cbn [drain gnHasMore]. destruct (Nat.ltb_spec 0 (S n)) as [_|]; [|lia].
    unfold genYield. cbn [gnK gnG gnPrev gnIdx gnD gnDEnd gnLanes length].
    destruct (Nat.ltb_spec (S (length cws) - 1) 3) as [|_]; [lia|].
    destruct (N.eqb_spec (N.of_nat idx) (2 ^ N.of_nat D)) as [|_]; [lia|].
    destruct (Hgood ltac:(done)) as (d' & -> & Hd' & HG).
    destruct (descend_ok aes D _ (N.of_nat idx) D d' ls Hd' ltac:(lia) HG) as (ls' & Ed & HG').
    rewrite Nat2N.id, Ed.
    destruct (Nat.eqb_spec (length g) 0) as [E|_]; [by apply nil_length_inv in E|].
    assert (N.of_nat idx < 2 ^ N.of_nat D) as Hidx by lia.
    rewrite (lanes3_bytes aes k0 cws g D Hlen _ _ Hidx HG').
    replace (N.of_nat idx + 1) with (N.of_nat (S idx)) by lia.
    assert (negb (N.of_nat (S idx) =? 2 ^ N.of_nat D) = (0 <? n)%nat) as ->.
    { destruct (N.eqb_spec (N.of_nat (S idx)) (2 ^ N.of_nat D)), (Nat.ltb_spec 0 n); cbn; lia. }
    destruct (IH (S idx) (ascend (N.of_nat D) (N.of_nat idx)) ls' f) as (d2 & ls2 & E2); [lia|lia| |].
    { intros Hn0. destruct (GoodLanes_next aes D (roots3 aes k0 cws g) (N.of_nat idx) ls') as (d2 & E2 & H2 & HG2); [lia|done|done|].
      exists d2. replace (N.of_nat (S idx)) with (N.of_nat idx + 1) by lia. done. }
    rewrite E2, imap_lanes. exists d2, ls2. change (seq idx (S n)) with (idx :: seq (S idx) n). rewrite map_cons, concat_cons. done.
Qed.
End gen.

Lemma generator_ok aes k0 cws g : g ≠ [] -> N.of_nat (length cws) < 2 ^ 64 ->
  exists o o' chunks, genInit aes (k0 :: cws) g gen0 = Done o /\
    (forall fuel, (N.to_nat (2 ^ N.of_nat (length cws)) <= fuel)%nat -> drain aes fuel o = Done (o', chunks)) /\
    spread chunks ≡ₚ map (fun p => (p, bit2N (evalBit aes (k0 :: cws) g p))) (allPositions (domainSize (length cws) (length g))) /\
    gnHasMore o' = false /\ genYield aes o' = Thrown (o', []).
Proof.
  intros Hg H64. unfold genInit. change (gnPrev gen0) with (@nil N). change (resize 1 k0 []) with [k0].
  destruct (Nat.ltb_spec (length cws) 3) as [Hs|Hb].
  - rewrite Nat.min_r by lia. destruct (topTree aes k0 cws (length cws)) as (r & -> & Hr); [done|]. rewrite take_ge in Hr by done.
    eexists _, _, _. split; [reflexivity|].
    assert (N.to_nat (2 ^ N.of_nat (length cws)) = 2 ^ length cws)%nat as Ep.
    { apply Nat2N.inj. rewrite N2Nat.id, Nat2N.inj_pow. done. }
    assert (0 < 2 ^ length cws)%nat as Hp by (apply Nat.neq_0_lt_0, Nat.pow_nonzero; lia).
    cbn [gnIdx gnD gnDEnd gnLanes gen0].
    assert (length r = 2 ^ length cws)%nat as Lr by (by rewrite Hr, map_length, seq_length).
    split.
    { intros fuel Hf. rewrite Ep in Hf. pose proof (drain_small aes k0 cws g 0 0 [] r Hs Hr (2 ^ length cws) 0 fuel ltac:(lia) Hf) as E.
      destruct (Nat.ltb_spec 0 (2 ^ length cws)) as [_|]; [|lia]. exact E. }
    split; [|split; [reflexivity|]].
    + rewrite (spread_leaves aes k0 cws g N.of_nat). apply fmap_Permutation.
      pose proof (treePositions_perm (2 ^ length cws) 1 (length g * 128)) as P. rewrite Nat.mul_1_r in P.
      replace (N.of_nat (2 ^ length cws * (length g * 128))) with (domainSize (length cws) (length g)) in P.
      2:{ unfold domainSize. rewrite !Nat2N.inj_mul, Nat2N.inj_pow. lia. }
      rewrite <- P. unfold treePositions. cbn [seq map concat]. rewrite app_nil_r. unfold lanePositions.
      match goal with |- ?a ≡ₚ ?b => assert (a = b) as ->; [|done] end.
      f_equal. apply map_ext. intros x. apply map_ext. intros i. lia.
    + unfold genYield. cbn [gnK gnG gnPrev gnIdx length]. destruct (Nat.ltb_spec (S (length cws) - 1) 3) as [_|]; [|lia].
      destruct (readN r (N.of_nat (2 ^ length cws))) as [x|] eqn:E; [|done].
      apply readN_Some, lookup_lt_Some in E. rewrite Nat2N.id in E. lia.
  - rewrite Nat.min_l by lia. destruct (topTree aes k0 cws 3) as (r & -> & ->); [done|].
    set (D := (length cws - 3)%nat). assert (length cws = 3 + D)%nat as Hlen by (unfold D; lia).
    change (seq 0 (2 ^ 3)) with (seq 0 8). set (r := map _ (seq 0 8)). change (map (fun s => _) r) with (lanes3 aes k0 cws g D).
    cbn [gnIdx gnD gnDEnd gnLanes gen0].
    assert (0 < 2 ^ N.of_nat D) as Hp by (apply N.neq_0_lt_0, N.pow_nonzero; lia).
    destruct (drain_big aes k0 cws g Hg D r Hlen ltac:(lia) (N.to_nat (2 ^ N.of_nat D)) 0 0 (lanes3 aes k0 cws g D) (N.to_nat (2 ^ N.of_nat D)))
      as (d' & ls' & _); [lia|lia|intros _; exists 0%nat; split; [done|]; split; [lia|]; by apply lanes3_good|].
    assert (exists d' ls', forall fuel, (N.to_nat (2 ^ N.of_nat D) <= fuel)%nat ->
       drain aes fuel (mkGen (k0 :: cws) g r true 0 0 (N.of_nat D) (lanes3 aes k0 cws g D)) =
         Done (mkGen (k0 :: cws) g r false (2 ^ N.of_nat D) d' (N.of_nat D) ls',
           concat (map (fun idx => map (fun j => leafChunk aes k0 cws g (N.of_nat j * 2 ^ N.of_nat D + N.of_nat idx)) (seq 0 8)) (seq 0 (N.to_nat (2 ^ N.of_nat D))))))
      as (d2 & ls2 & Hdr).
    { clear d' ls'.
      assert (forall fuel, (N.to_nat (2 ^ N.of_nat D) <= fuel)%nat -> exists d' ls', drain aes fuel (mkGen (k0 :: cws) g r true 0 0 (N.of_nat D) (lanes3 aes k0 cws g D)) =
         Done (mkGen (k0 :: cws) g r false (2 ^ N.of_nat D) d' (N.of_nat D) ls',
           concat (map (fun idx => map (fun j => leafChunk aes k0 cws g (N.of_nat j * 2 ^ N.of_nat D + N.of_nat idx)) (seq 0 8)) (seq 0 (N.to_nat (2 ^ N.of_nat D)))))) as Hf.
      { intros fuel Hf. destruct (drain_big aes k0 cws g Hg D r Hlen ltac:(lia) (N.to_nat (2 ^ N.of_nat D)) 0 0 (lanes3 aes k0 cws g D) fuel)
          as (d' & ls' & E); [lia|lia|intros _; exists 0%nat; split; [done|]; split; [lia|]; by apply lanes3_good|].
        exists d', ls'. destruct (Nat.ltb_spec 0 (N.to_nat (2 ^ N.of_nat D))) as [_|]; [|lia]. exact E. }
      destruct (Hf _ (le_n _)) as (d' & ls' & E). exists d', ls'. intros fuel Hle. destruct (Hf fuel Hle) as (d2 & ls2 & E2).
      assert (forall f o o' c, drain aes f o = Done (o', c) -> forall f', (f <= f')%nat -> drain aes f' o = Done (o', c)) as Mono.
      { clear. induction f as [|f IH]; intros o o' c Ho f' Hle.
        - cbn [drain] in Ho. destruct f'; cbn [drain]; destruct (gnHasMore o); done.
        - destruct f' as [|f']; [lia|]. cbn [drain] in Ho |- *. destruct (gnHasMore o); [|done].
          destruct (genYield aes o) as [[o1 cs]|[o1 cs]| |]; try done.
          destruct (drain aes f o1) as [[o2 c2]|[o2 c2]| |] eqn:E1; try done.
          rewrite (IH _ _ _ E1) by lia. done. }
      by apply (Mono _ _ _ _ E). }
    eexists _, _, _. split; [reflexivity|]. split.
    { intros fuel Hf. apply Hdr. etrans; [|exact Hf]. assert (2 ^ N.of_nat D <= 2 ^ N.of_nat (length cws)); [|lia].
      apply N.pow_le_mono_r; lia. }
    split; [|split; [reflexivity|]].
    + assert (concat (map (fun idx => map (fun j => leafChunk aes k0 cws g (N.of_nat j * 2 ^ N.of_nat D + N.of_nat idx)) (seq 0 8)) (seq 0 (N.to_nat (2 ^ N.of_nat D))))
        = map (fun a => leafChunk aes k0 cws g ((fun a : nat * nat => N.of_nat a.2 * 2 ^ N.of_nat D + N.of_nat a.1) a))
            (concat (map (fun idx => map (fun j => (idx, j)) (seq 0 8)) (seq 0 (N.to_nat (2 ^ N.of_nat D)))))) as ->.
      { rewrite concat_map, map_map. done. }
      rewrite spread_leaves. apply fmap_Permutation.
      pose proof (treePositions_perm 8 (N.to_nat (2 ^ N.of_nat D)) (length g * 128)) as P.
      replace (N.of_nat (8 * N.to_nat (2 ^ N.of_nat D) * (length g * 128))) with (domainSize (length cws) (length g)) in P.
      2:{ unfold domainSize. rewrite Hlen. rewrite Nat2N.inj_add, N.pow_add_r. change (2 ^ N.of_nat 3) with 8. lia. }
      rewrite <- P. unfold treePositions, lanePositions.
      match goal with |- ?a ≡ₚ ?b => assert (a = b) as ->; [|done] end.
      rewrite concat_map, map_map. rewrite <- flat_map_concat_map.
      clear Hdr P. induction (seq 0 (N.to_nat (2 ^ N.of_nat D))) as [|idx l IH]; [done|].
      cbn [flat_map]. rewrite map_cons, concat_cons, concat_app, IH. f_equal. rewrite map_map. f_equal. apply map_ext. intros j.
      cbn [fst snd]. apply map_ext. intros i. do 3 f_equal. lia.
    + unfold genYield. cbn [gnK gnG gnPrev gnIdx gnDEnd length]. destruct (Nat.ltb_spec (S (length cws) - 1) 3) as [|_]; [lia|].
      by rewrite N.eqb_refl.
Qed.
