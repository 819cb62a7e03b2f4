(** Renamings of random sources; KKRT. *)
From stdpp Require Import sets.
From Verif Require Import Base CuckooIndex_Spec SimpleIndex_Spec Kkrt_Model Kkrt_Spec Kkrt_Proofs KkrtMain_Proofs Order_Spec OrderKkrt_Spec Order_Proofs OrderKkrt_Proofs Reveal_Spec.

(** ** Renamings *)

Section Rename.
Context {A : Type} `{EqDecision A}.
Definition swap (x y z : A) : A := if decide (z = x) then y else if decide (z = y) then x else z.
Lemma swap_twice x y z : swap x y (swap x y z) = z.
Proof. unfold swap. repeat destruct (decide _); congruence. Qed.
Lemma extend_renaming (l l' : list A) : NoDup l -> NoDup l' -> length l = length l' ->
  exists s, renaming s /\ (forall i a b, l !! i = Some a -> l' !! i = Some b -> s a = b) /\ forall z, z ∉ l -> z ∉ l' -> s z = z.
Proof.
  revert l'. induction l as [|a l IH]; intros [|b l'] D D' L; [|done|done|].
  { exists id. split; [by exists id|]. split; [intros i a b Ha; by rewrite lookup_nil in Ha|done]. }
  apply NoDup_cons in D as [Na D], D' as [Nb D']. destruct (IH l' D D') as (s & (s' & Hs) & Hl & Hz); [by injection L|].
  assert (forall x y, s x = s y -> x = y) as Inj. { intros x y E. rewrite <- (proj1 (Hs x)), E. apply Hs. }
  exists (fun z => swap (s a) b (s z)). split; [|split].
  - exists (fun z => s' (swap (s a) b z)). intros z. split.
    + rewrite swap_twice. apply Hs.
    + rewrite (proj2 (Hs _)). apply swap_twice.
  - intros [|i] x y Hx Hy; cbn in Hx, Hy.
    + injection Hx as <-. injection Hy as <-. unfold swap. by rewrite decide_True.
    + rewrite (Hl i x y Hx Hy). unfold swap. rewrite decide_False, decide_False; [done| |].
      * intros ->. apply Nb. by eapply elem_of_list_lookup_2.
      * intros E. apply Na. rewrite <- (Hl i x y Hx Hy) in E. apply Inj in E as <-. by eapply elem_of_list_lookup_2.
  - intros z Hz1 Hz2. apply not_elem_of_cons in Hz1 as [Za Zl], Hz2 as [Zb Zl']. rewrite (Hz z Zl Zl'). unfold swap. rewrite decide_False, decide_False; [done|done|].
    intros E. apply Za, Inj. rewrite (Hz z Zl Zl'). done.
Qed.
(** Two ways to get the numbers of the places [pl] from the sources. *)
Lemma rename_places {I} (pl : list I) (src src' : I -> A) (fixed : A -> Prop) :
  NoDup pl -> (forall i j, i ∈ pl -> j ∈ pl -> src i = src j -> i = j) -> (forall i j, i ∈ pl -> j ∈ pl -> src' i = src' j -> i = j) ->
  (forall i, i ∈ pl -> fixed (src i) \/ fixed (src' i) -> src' i = src i) ->
  exists s, renaming s /\ (forall i, i ∈ pl -> s (src' i) = src i) /\ forall z, fixed z -> s z = z.
Proof.
  intros D Is Is' Hf.
  assert (forall f : I -> A, (forall i j, i ∈ pl -> j ∈ pl -> f i = f j -> i = j) -> NoDup (map f pl)) as ND.
  { intros f Hi. apply NoDup_alt. intros p q a Hp Hq. apply list_lookup_fmap_Some in Hp as (i & Hp & ->), Hq as (j & Hq & E).
    apply Hi in E; [|by eapply elem_of_list_lookup_2|by eapply elem_of_list_lookup_2]. subst j. by eapply NoDup_lookup. }
  destruct (extend_renaming (map src' pl) (map src pl)) as (s & Rs & Hl & Hz); [by apply ND|by apply ND|by rewrite !map_length|].
  assert (forall i, i ∈ pl -> s (src' i) = src i) as Hs.
  { intros i (k & Hk)%elem_of_list_lookup. apply (Hl k); by rewrite list_lookup_fmap, Hk. }
  exists s. split; [done|]. split; [done|]. intros z Fz.
  destruct (decide (z ∈ map src' pl)) as [Hin|Hn].
  - apply elem_of_list_fmap in Hin as (i & -> & Hi). rewrite (Hs i Hi). symmetry. apply Hf; [done|by right].
  - destruct (decide (z ∈ map src pl)) as [Hin|Hn'].
    + apply elem_of_list_fmap in Hin as (i & -> & Hi). exfalso. apply Hn. rewrite <- (Hf i Hi) by (by left). apply elem_of_list_fmap. by exists i.
    + by apply Hz.
Qed.
End Rename.

(** ** KKRT *)

Section Kkrt.
Context (encS : N -> N) (nb : N).
(** The source of the mask of hash function [h] of item number [k]. *)
Definition maskSource (S : list N) (k h : nat) : source :=
  let x := default 0 (S !! k) in if repeated encS nb x h then Drawn k h else Oprf (cand nb (N.lxor (encS x) x) (N.of_nat h)) x.
Lemma maskSource_inj S k h k' h' : NoDup S -> (k < length S)%nat -> (k' < length S)%nat ->
  maskSource S k h = maskSource S k' h' -> k = k' /\ h = h'.
Proof.
  intros D Lk Lk'. destruct (lookup_lt_is_Some_2 S k Lk) as [x Hx], (lookup_lt_is_Some_2 S k' Lk') as [x' Hx'].
  unfold maskSource. rewrite Hx, Hx'. cbn. destruct (repeated encS nb x h) eqn:E, (repeated encS nb x' h') eqn:E'; try done; [by intros [= -> ->]|].
  intros [= Ec <-]. assert (k = k') as <- by (by eapply NoDup_lookup). split; [done|]. clear Hx'. unfold repeated in *.
  destruct (Nat.lt_trichotomy h h') as [H|[H|H]]; [|done|]; exfalso.
  - assert (existsb (fun i => cand nb (N.lxor (encS x) x) (N.of_nat i) =? cand nb (N.lxor (encS x) x) (N.of_nat h')) (seq 0 h') = true) as X; [|congruence].
    apply existsb_exists. exists h. split; [apply elem_of_list_In, elem_of_seq; lia|by apply N.eqb_eq].
  - assert (existsb (fun i => cand nb (N.lxor (encS x) x) (N.of_nat i) =? cand nb (N.lxor (encS x) x) (N.of_nat h)) (seq 0 h) = true) as X; [|congruence].
    apply existsb_exists. exists h'. split; [apply elem_of_list_In, elem_of_seq; lia|by apply N.eqb_eq].
Qed.
Lemma mask_from_source w ms S k h m : (k < length S)%nat -> (h < 3)%nat -> rightMask (oprfOf w) encS (drawnOf w) nb ms S k h m -> m = w (maskSource S k h) mod 256 ^ ms.
Proof.
  intros Lk Hh (x & Hx & H1 & H2). unfold maskSource. rewrite Hx. cbn. destruct (repeated encS nb x h) eqn:E.
  - apply H1. by apply repeated_spec.
  - destruct H2 as (b & Hb & ->); [by rewrite <- repeated_spec, E|]. apply cand_mapsTo in Hb as ->. done.
Qed.
End Kkrt.

Lemma kkrt_reveals enc seed ms nb (P : list (N * N)) R S S' : 0 < nb -> nb < 2 ^ 64 - 1 -> (0 < length S)%nat ->
  (forall b y, (b, y) ∈ P -> candidate (enc seed) nb y b -> y ∈ R) -> sameCommon R S S' ->
  exists f s, relabels (length S) f /\ renaming s /\ (forall b y, (b, y) ∈ P -> s (Oprf b y) = Oprf b y) /\
    forall w pm iv iv' sched sched' g g' msgs msgs',
      permutationOf (length S) pm iv -> permutationOf (length S') (map f pm) iv' ->
      senderInput (oprfOf w) enc seed (drawnOf w) ms nb pm iv (length S) S sched = Done (Some (g, Sent msgs)) ->
      senderInput (oprfOf (fun a => w (s a))) enc seed (drawnOf (fun a => w (s a))) ms nb (map f pm) iv' (length S') S' sched' = Done (Some (g', Sent msgs')) ->
      msgs' = msgs.
Proof.
  intros Hnb0 Hnb Hn HP Hc. pose proof Hc as (D & D' & L & _). destruct (match_positions R S S' Hc) as (f & Pf & Hpick). pose proof Pf as (f' & Hf').
  set (pl := list_prod (seq 0 (length S)) (seq 0 3)).
  assert (forall k h, (k, h) ∈ pl <-> (k < length S)%nat /\ (h < 3)%nat) as Hpl.
  { intros k h. unfold pl. rewrite elem_of_list_In, in_prod_iff, <- !elem_of_list_In, !elem_of_seq. lia. }
  assert (NoDup pl) as Dpl.
  { apply NoDup_ListNoDup. unfold pl. clear. generalize (seq 0 3), (NoDup_seq 0 3). intros hs Dh. generalize (NoDup_seq 0 (length S)).
    induction (seq 0 (length S)) as [|k ks IH]; intros Dk; [constructor|]. cbn. apply NoDup_cons in Dk as [Nk Dk]. apply NoDup_ListNoDup, NoDup_app. split; [|split].
    - by apply (NoDup_fmap_2 (pair k)).
    - intros [k' h] Hin. apply elem_of_list_fmap in Hin as (? & [= -> ->] & _). rewrite elem_of_list_In, in_prod_iff, <- elem_of_list_In. tauto.
    - apply NoDup_ListNoDup. by apply IH. }
  destruct (rename_places pl (fun p => maskSource (enc seed) nb S p.1 p.2) (fun p => maskSource (enc seed) nb S' (f p.1) p.2)
    (fun a => match a with Oprf b y => (b, y) ∈ P | Drawn _ _ => False end)) as (s & Rs & Hs & Hfix).
  - done.
  - intros [k h] [k' h'] [Hk Hh]%Hpl [Hk' Hh']%Hpl E. cbn in E. apply maskSource_inj in E as [-> ->]; done.
  - intros [k h] [k' h'] [Hk Hh]%Hpl [Hk' Hh']%Hpl E. cbn in E. destruct (Hf' k Hk) as (? & ? & I1 & ?), (Hf' k' Hk') as (? & ? & I2 & ?).
    apply maskSource_inj in E as [E ->]; [|done|lia|lia]. f_equal. congruence.
  - intros [k h] [Hk Hh]%Hpl. cbn [fst snd]. destruct (lookup_lt_is_Some_2 S k Hk) as [x Hx]. destruct (Hpick k x Hx) as (x' & Hx' & Hcase).
    assert (forall T j y, T !! j = Some y -> match maskSource (enc seed) nb T j h with Oprf b z => (b, z) ∈ P | Drawn _ _ => False end ->
      y ∈ R /\ repeated (enc seed) nb y h = false) as Hk'.
    { intros T j y Hy. unfold maskSource. rewrite Hy. cbn. destruct (repeated (enc seed) nb y h); [done|]. intros HPy. split; [|done].
      apply (HP _ _ HPy). exists (N.of_nat h). split; [lia|]. by apply cand_mapsTo. }
    intros [H|H].
    + destruct (Hk' S k x Hx H) as [Rx Er]. assert (x = x') as <- by (destruct Hcase as [?|[? _]]; done). unfold maskSource. rewrite Hx, Hx'. cbn. by rewrite Er.
    + destruct (Hk' S' (f k) x' Hx' H) as [Rx Er]. assert (x = x') as <- by (destruct Hcase as [?|[_ ?]]; done). unfold maskSource. rewrite Hx, Hx'. cbn. by rewrite Er.
  - exists f, s. split; [done|]. split; [done|]. split; [by intros b y Hy; apply (Hfix (Oprf b y))|].
    intros w pm iv iv' sched sched' g g' msgs msgs' Hp Hp' E E'.
    assert (0 < length S')%nat as Hn' by lia.
    destruct (sent_right _ _ _ _ _ _ _ _ _ _ _ _ Hnb0 Hnb Hn Hp E) as (L1 & C1).
    destruct (sent_right _ _ _ _ _ _ _ _ _ _ _ _ Hnb0 Hnb Hn' Hp' E') as (L2 & C2).
    assert (concat msgs' = concat msgs) as Hall.
    { assert (length pm = length S) as Lp by (rewrite (proj1 Hp); apply seq_length).
      apply (list_eq_same_length _ _ (3 * length S)%nat); [lia|lia|]. intros q m' m Hq Hm' Hm.
      assert (q = (q / 3) * 3 + q mod 3)%nat as Eq by (rewrite Nat.mul_comm; apply Nat.div_mod; lia).
      assert (q mod 3 < 3)%nat as Hh by (apply Nat.mod_upper_bound; lia). assert (q / 3 < length S)%nat as Hi by (apply Nat.div_lt_upper_bound; lia).
      set (i := (q / 3)%nat) in *. set (h := (q mod 3)%nat) in *. clearbody i h. subst q.
      destruct (lookup_lt_is_Some_2 pm i ltac:(lia)) as [k Hk].
      assert (map f pm !! i = Some (f k)) as Hk' by (by rewrite list_lookup_fmap, Hk).
      assert (k < length S)%nat as Lk. { apply elem_of_list_lookup_2 in Hk. rewrite (proj1 Hp) in Hk. apply elem_of_seq in Hk. lia. }
      destruct (C1 i k h Hk Hh) as (m1 & Em1 & R1). destruct (C2 i (f k) h Hk' Hh) as (m2 & Em2 & R2).
      rewrite Hm in Em1. injection Em1 as <-. rewrite Hm' in Em2. injection Em2 as <-.
      apply mask_from_source in R1; [|done|done]. apply mask_from_source in R2; [|destruct (Hf' k Lk); lia|done].
      rewrite R1, R2. do 2 f_equal. apply (Hs (k, h)). by apply Hpl. }
    rewrite (sent_masks _ _ _ _ _ _ _ _ _ _ _ _ Hnb0 Hnb Hn Hp E) in *. rewrite (sent_masks _ _ _ _ _ _ _ _ _ _ _ _ Hnb0 Hnb Hn' Hp' E') in *.
    rewrite !concat_sent in Hall by (apply Hp || apply Hp'). unfold sentMsgs. unfold numRegions. rewrite L. apply map_ext. intros r. unfold regionMsg. by rewrite Hall, L.
Qed.
