(** KKRT: the places of the masks hide everything but the common items; the permutation is drawn uniformly. *)
From stdpp Require Import sets.
From Verif Require Import Base CuckooIndex_Spec SimpleIndex_Spec Kkrt_Model Kkrt_Spec Kkrt_Proofs KkrtMain_Proofs Order_Spec OrderKkrt_Spec Order_Proofs.

(** ** Every permutation comes from exactly one sequence of residues *)

Section Draw.
Context (n : nat) (rnd : nat -> N).
Lemma loop_prefix k : forall i pm iv r iv', permLoop n rnd k i pm iv = Some (r, iv') -> take i r = take i pm.
Proof.
  induction k as [|k IH]; intros i pm iv r iv' E; cbn [permLoop] in E; [by injection E as <- _|]. cbv zeta in E.
  set (j := (N.to_nat (rnd i mod N.of_nat (n - i)) + i)%nat) in E.
  destruct (pm !! i) as [a|] eqn:Ha; [|done]. destruct (pm !! j) as [b|] eqn:Hb; [|done].
  destruct (<[j:=a]> (<[i:=b]> pm) !! i) as [c|] eqn:Hc; [|done]. destruct (c <? length iv)%nat; [|done].
  apply IH in E. transitivity (take i (take (S i) r)); [rewrite take_take; f_equal; lia|]. rewrite E, take_take.
  rewrite Nat.min_l by lia. rewrite take_insert by (unfold j; lia). by rewrite take_insert.
Qed.
End Draw.

Lemma swap_prefix (pm : list nat) i j a b : pm !! i = Some a -> pm !! (j + i)%nat = Some b ->
  take (S i) (<[(j + i)%nat := a]> (<[i := b]> pm)) = take i pm ++ [b].
Proof.
  intros Ha Hb. pose proof (lookup_lt_Some _ _ _ Ha). pose proof (lookup_lt_Some _ _ _ Hb).
  assert (<[(j + i)%nat := a]> (<[i := b]> pm) !! i = Some b) as E.
  { destruct j as [|j]; cbn [Nat.add].
    - rewrite list_lookup_insert; [cbn in Hb; congruence|rewrite insert_length; lia].
    - rewrite list_lookup_insert_ne by lia. apply list_lookup_insert. lia. }
  rewrite (take_S_r _ _ _ E). f_equal. rewrite take_insert by lia. by rewrite take_insert.
Qed.
Lemma swap_suffix (pm : list nat) i j a b t : pm !! i = Some a -> pm !! (j + i)%nat = Some b -> drop i pm ≡ₚ b :: t ->
  drop (S i) (<[(j + i)%nat := a]> (<[i := b]> pm)) ≡ₚ t.
Proof.
  intros Ha Hb Ht. apply (Permutation_app_inv_l (take (S i) (<[(j + i)%nat := a]> (<[i := b]> pm)))). rewrite take_drop, swap_prefix by done.
  rewrite swap_perm by done. rewrite <- (take_drop i pm) at 1. rewrite Ht, <- app_assoc. done.
Qed.
Lemma loop_step n rnd k i pm iv : pm ≡ₚ seq 0 n -> length iv = n -> (i < n)%nat ->
  exists a b, pm !! i = Some a /\ pm !! (N.to_nat (rnd i mod N.of_nat (n - i)) + i)%nat = Some b /\
    permLoop n rnd (S k) i pm iv =
    permLoop n rnd k (S i) (<[(N.to_nat (rnd i mod N.of_nat (n - i)) + i)%nat := a]> (<[i := b]> pm)) (<[b := i]> iv).
Proof.
  intros P Li Hi. assert (length pm = n) as Lp by (rewrite P; apply seq_length). cbn [permLoop]. cbv zeta.
  set (j := N.to_nat (rnd i mod N.of_nat (n - i))).
  assert (j + i < n)%nat as Hj. { pose proof (N.mod_lt (rnd i) (N.of_nat (n - i)) ltac:(lia)). unfold j. lia. }
  destruct (lookup_lt_is_Some_2 pm i ltac:(lia)) as [a Ha]. destruct (lookup_lt_is_Some_2 pm (j + i)%nat ltac:(lia)) as [b Hb].
  exists a, b. rewrite Ha, Hb. split; [done|]. split; [done|].
  assert (<[(j + i)%nat := a]> (<[i := b]> pm) !! i = Some b) as ->.
  { pose proof (swap_prefix pm i j a b Ha Hb) as E. rewrite <- (lookup_take _ (S i)) by lia. rewrite E.
    rewrite lookup_app_r; rewrite take_length_le by lia; [|lia]. by rewrite Nat.sub_diag. }
  assert (b < n)%nat as Lb. { assert (b ∈ pm) as X by eauto using elem_of_list_lookup_2. rewrite P in X. apply elem_of_seq in X. lia. }
  rewrite (proj2 (Nat.ltb_lt b (length iv))) by lia. done.
Qed.
Lemma loop_target n k : forall i pm iv t, (i + k = n)%nat -> pm ≡ₚ seq 0 n -> length iv = n -> drop i pm ≡ₚ t ->
  exists js, length js = k /\ (forall d j, js !! d = Some j -> (j < n - (i + d))%nat) /\
    forall rnd, (exists iv', permLoop n rnd k i pm iv = Some (take i pm ++ t, iv')) <->
      (forall d j, js !! d = Some j -> rnd (i + d)%nat mod N.of_nat (n - (i + d)) = N.of_nat j).
Proof.
  induction k as [|k IH]; intros i pm iv t Hk P Li Ht.
  { exists []. split; [done|]. split; [done|]. intros rnd. assert (length pm = n) as Lp by (rewrite P; apply seq_length).
    rewrite drop_ge in Ht by lia. apply Permutation_length in Ht. destruct t; [|done]. rewrite take_ge, app_nil_r by lia.
    split; [done|]. intros _. by exists iv. }
  assert (length pm = n) as Lp by (rewrite P; apply seq_length).
  assert (NoDup pm) as ND by (rewrite P; apply NoDup_seq).
  destruct t as [|b t]. { apply Permutation_length in Ht. rewrite drop_length in Ht. cbn in Ht. lia. }
  assert (b ∈ drop i pm) as Hb by (rewrite Ht; left). apply elem_of_list_lookup in Hb as [j0 Hb]. rewrite lookup_drop in Hb.
  pose proof (lookup_lt_Some _ _ _ Hb) as Hj0. rewrite Nat.add_comm in Hb.
  destruct (lookup_lt_is_Some_2 pm i ltac:(lia)) as [a Ha].
  destruct (IH (S i) (<[(j0 + i)%nat := a]> (<[i := b]> pm)) (<[b := i]> iv) t) as (js & Ljs & Bjs & Hjs);
    [lia|by rewrite swap_perm|by rewrite insert_length|by apply swap_suffix|].
  exists (j0 :: js). split; [cbn; by rewrite Ljs|]. split.
  { intros [|d] j; cbn; [intros [= <-]; lia|]. intros Hd%Bjs. lia. }
  intros rnd. destruct (loop_step n rnd k i pm iv P Li ltac:(lia)) as (a' & b' & Ha' & Hb' & E). rewrite Ha in Ha'. injection Ha' as <-. rewrite E. split.
  - intros (iv' & Hl). pose proof (loop_prefix _ _ _ _ _ _ _ _ Hl) as Hp. rewrite swap_prefix in Hp by done.
    change (b :: t) with ([b] ++ t) in Hp. rewrite app_assoc, take_app_alt in Hp by (rewrite app_length, take_length_le by lia; cbn; lia).
    apply app_inv_head in Hp. injection Hp as <-.
    assert (N.to_nat (rnd i mod N.of_nat (n - i)) = j0) as Ej. { pose proof (NoDup_lookup _ _ _ _ ND Hb Hb'). lia. }
    intros [|d] j; cbn [lookup list_lookup].
    + intros [= <-]. rewrite Nat.add_0_r. lia.
    + intros Hd. rewrite Ej in Hl. replace (i + S d)%nat with (S i + d)%nat by lia. revert d j Hd. apply Hjs. exists iv'.
      rewrite swap_prefix by done. by rewrite <- app_assoc.
  - intros H. pose proof (H O j0 eq_refl) as H0. rewrite Nat.add_0_r in H0. rewrite H0, Nat2N.id in *. rewrite Hb in Hb'. injection Hb' as <-.
    destruct (proj2 (Hjs rnd)) as (iv' & Hl).
    + intros d j Hd. replace (S i + d)%nat with (i + S d)%nat by lia. by apply H.
    + exists iv'. rewrite Hl, swap_prefix by done. by rewrite <- app_assoc.
Qed.
Lemma draw_uniform n pm : N.of_nat n < 2 ^ 32 -> pm ≡ₚ seq 0 n ->
  exists js, length js = n /\ (forall i j, js !! i = Some j -> (j < n - i)%nat) /\
    forall rnd, (exists iv, drawPermutation n rnd = Done (Some (pm, iv))) <->
      (forall i j, js !! i = Some j -> rnd i mod N.of_nat (n - i) = N.of_nat j).
Proof.
  intros Hn P. destruct (loop_target n n 0 (seq 0 n) (replicate n O) pm) as (js & L & B & H); [lia|done|apply replicate_length|by rewrite drop_0|].
  exists js. split; [done|]. split; [exact B|]. intros rnd. rewrite <- H. cbn [take app]. unfold drawPermutation.
  destruct (N.ltb_spec (2 ^ 32 - 1) (N.of_nat n)); [lia|]. destruct (permLoop n rnd n 0 (seq 0 n) (replicate n O)) as [[r iv]|]; split.
  - intros (iv' & [= <- <-]). by exists iv.
  - intros (iv' & [= <- <-]). by exists iv.
  - intros (iv' & [=]).
  - intros (iv' & [=]).
Qed.

(** ** The messages *)

Definition repeated (encS : N -> N) (nb : N) (x : N) (h : nat) : bool :=
  existsb (fun h' => cand nb (N.lxor (encS x) x) (N.of_nat h') =? cand nb (N.lxor (encS x) x) (N.of_nat h)) (seq 0 h).
Lemma repeated_spec encS nb x h : repeated encS nb x h = true <-> repeats nb (N.lxor (encS x) x) (N.of_nat h).
Proof.
  unfold repeated, repeats. rewrite existsb_exists. split.
  - intros (h' & Hin & E%N.eqb_eq). apply elem_of_list_In, elem_of_seq in Hin. exists (N.of_nat h'), (cand nb (N.lxor (encS x) x) (N.of_nat h)).
    rewrite !cand_mapsTo. split; [lia|]. done.
  - intros (h' & b & Hh & E1%cand_mapsTo & E2%cand_mapsTo). exists (N.to_nat h'). split; [apply elem_of_list_In, elem_of_seq; lia|].
    apply N.eqb_eq. rewrite N2Nat.id. congruence.
Qed.

Lemma not_recognised F encS junk nb ms R S idx x h m : junkHarmless F encS junk nb ms R -> noFalseMatch F encS nb ms R S ->
  (h < 3)%nat -> rightMask F encS junk nb ms S idx h m -> S !! idx = Some x -> x ∉ R -> ~ recognises F encS nb ms R m.
Proof.
  intros HJ Hf Hh (x' & Hx & H1 & H2) Hx' Hr (y & b & Hy & Cy & E). rewrite Hx' in Hx. injection Hx as <-.
  assert (repeats nb (N.lxor (encS x) x) (N.of_nat h) \/ ~ repeats nb (N.lxor (encS x) x) (N.of_nat h)) as [D|D].
  { destruct (repeated encS nb x h) eqn:Er; [left|right]; rewrite <- repeated_spec, Er; done. }
  - apply (HJ idx h y b Hy Cy). rewrite <- (H1 D). done.
  - destruct (H2 D) as (b' & Hb & Em). apply Hr. rewrite <- (Hf y x b b'); try done; [by eapply elem_of_list_lookup_2| |congruence].
    exists (N.of_nat h). split; [lia|done].
Qed.

Lemma kkrt_hidden F enc seed ms nb R S S' : 0 < nb -> nb < 2 ^ 64 - 1 -> sameCommon R S S' -> (0 < length S)%nat ->
  noFalseMatch F (enc seed) nb ms R (S ++ S') ->
  exists f, relabels (length S) f /\
    forall junk junk' pm iv iv' sched sched' g g' msgs msgs',
      junkHarmless F (enc seed) junk nb ms R -> junkHarmless F (enc seed) junk' nb ms R ->
      permutationOf (length S) pm iv -> permutationOf (length S) (map f pm) iv' ->
      senderInput F enc seed junk ms nb pm iv (length S) S sched = Done (Some (g, Sent msgs)) ->
      senderInput F enc seed junk' ms nb (map f pm) iv' (length S') S' sched' = Done (Some (g', Sent msgs')) ->
      looksAlike (recognises F (enc seed) nb ms R) (concat msgs) (concat msgs').
Proof.
  intros Hnb0 Hnb Hc Hn Hf. pose proof Hc as (_ & _ & L & _). destruct (match_positions R S S' Hc) as (f & Pf & Hpick). exists f. split; [done|].
  intros junk junk' pm iv iv' sched sched' g g' msgs msgs' J J' Hp Hp' E E'.
  destruct (sent_right F enc seed junk ms nb pm iv S sched g msgs Hnb0 Hnb Hn Hp E) as (L1 & C1).
  destruct (sent_right F enc seed junk' ms nb (map f pm) iv' S' sched' g' msgs' Hnb0 Hnb) as (L2 & C2); [lia|by rewrite <- L|done|].
  assert (length pm = length S) as Lp by (rewrite (proj1 Hp); apply seq_length).
  assert (forall T, T = S \/ T = S' -> noFalseMatch F (enc seed) nb ms R T) as Hf'.
  { intros T HT x y b b' Hx Hy. apply Hf; [done|]. apply elem_of_app. destruct HT as [->| ->]; auto. }
  apply Forall2_same_length_lookup_2; [lia|]. intros q m m' Hm Hm'. pose proof (lookup_lt_Some _ _ _ Hm) as Hq.
  assert (q = (q / 3) * 3 + q mod 3)%nat as Eq by (rewrite Nat.mul_comm; apply Nat.div_mod; lia).
  assert (q mod 3 < 3)%nat as Hh by (apply Nat.mod_upper_bound; lia). assert (q / 3 < length S)%nat as Hi by (apply Nat.div_lt_upper_bound; lia).
  set (i := (q / 3)%nat) in *. set (h := (q mod 3)%nat) in *. clearbody i h. subst q.
  destruct (lookup_lt_is_Some_2 pm i ltac:(lia)) as [idx Hidx].
  assert (map f pm !! i = Some (f idx)) as Hidx' by (by rewrite list_lookup_fmap, Hidx).
  destruct (C1 i idx h Hidx Hh) as (m1 & Em1 & R1). destruct (C2 i (f idx) h Hidx' Hh) as (m2 & Em2 & R2).
  rewrite Hm in Em1. injection Em1 as <-. rewrite Hm' in Em2. injection Em2 as <-.
  pose proof R1 as (x & Hx & A1 & A2). pose proof R2 as (x' & Hx' & B1 & B2). destruct (Hpick idx x Hx) as (x2 & Hx2 & Hcase).
  rewrite Hx' in Hx2. injection Hx2 as <-. destruct Hcase as [<-|[Nx Nx']].
  - destruct (repeated (enc seed) nb x h) eqn:Er.
    + apply repeated_spec in Er. right. rewrite (A1 Er), (B1 Er). split; intros (y & b & Hy & Cy & Ey); [by apply (J idx h y b)|by apply (J' (f idx) h y b)].
    + left. destruct A2 as (b & Hb & ->); [by rewrite <- repeated_spec, Er|]. destruct B2 as (b' & Hb' & ->); [by rewrite <- repeated_spec, Er|].
      apply cand_mapsTo in Hb as ->, Hb' as ->. done.
  - right. split.
    + by apply (not_recognised F (enc seed) junk nb ms R S idx x h m); auto.
    + by apply (not_recognised F (enc seed) junk' nb ms R S' (f idx) x' h m'); auto.
Qed.
