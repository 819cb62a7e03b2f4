(** What the permutation of RR16 shows to the sender. *)
From stdpp Require Import sets sorting.
From Verif Require Import Base Partition_Model Rr16_Model Rr16_Spec Rr16_Proofs Rr16Perm_Spec.

(** The permutation followed by the choices left over, and back. *)
Fixpoint full (bf : list bool) (zs os : list N) : list N :=
  match bf with
  | [] => zs ++ os
  | b :: bf' =>
      match zs, b with
      | z :: zs', false => z :: full bf' zs' os
      | _, _ => match os with o :: os' => o :: full bf' zs os' | [] => zs end
      end
  end.
Fixpoint unfull (bf : list bool) (k0 : nat) (l : list N) : list N * list N :=
  match bf, l with
  | [], _ => (take k0 l, drop k0 l)
  | _, [] => ([], [])
  | b :: bf', x :: l' =>
      match k0, b with
      | S k, false => let c := unfull bf' k l' in (x :: c.1, c.2)
      | _, _ => let c := unfull bf' k0 l' in (c.1, x :: c.2)
      end
  end.
Definition enough (bf : list bool) (k0 k1 : nat) : Prop := (countOnes bf <= k1)%nat /\ (length bf <= k0 + k1)%nat.

Lemma full_perm bf zs os : enough bf (length zs) (length os) -> full bf zs os ≡ₚ zs ++ os.
Proof.
  unfold enough. revert zs os. induction bf as [|b bf IH]; intros zs os [C L]; cbn [full]; [done|]. rewrite countOnes_cons in C. cbn [length] in L.
  pose proof (countOnes_le bf). destruct zs as [|z zs].
  - destruct os as [|o os]; [cbn in L; lia|]. cbn [length app] in *. by rewrite IH by (cbn in *; lia).
  - destruct b.
    + destruct os as [|o os]; [cbn in C; lia|]. rewrite IH by (cbn in *; lia). by rewrite <- Permutation_middle.
    + cbn [app]. by rewrite IH by (cbn in *; lia).
Qed.
Lemma full_take bf zs os : enough bf (length zs) (length os) ->
  buildPerm bf zs os = Some (map (fun i => i mod 2 ^ 32) (take (length bf) (full bf zs os))).
Proof.
  unfold enough. revert zs os. induction bf as [|b bf IH]; intros zs os [C L]; cbn [full buildPerm length take]; [done|]. rewrite countOnes_cons in C. cbn [length] in L.
  pose proof (countOnes_le bf). destruct zs as [|z zs].
  - destruct os as [|o os]; [cbn in L; lia|]. cbn [length] in *. by rewrite IH by (cbn in *; lia).
  - destruct b.
    + destruct os as [|o os]; [cbn in C; lia|]. by rewrite IH by (cbn in *; lia).
    + by rewrite IH by (cbn in *; lia).
Qed.
Lemma unfull_full bf zs os : enough bf (length zs) (length os) -> unfull bf (length zs) (full bf zs os) = (zs, os).
Proof.
  unfold enough. revert zs os. induction bf as [|b bf IH]; intros zs os [C L]; cbn [full unfull].
  { by rewrite take_app, drop_app. }
  rewrite countOnes_cons in C. cbn [length] in L. pose proof (countOnes_le bf). destruct zs as [|z zs].
  - destruct os as [|o os]; [cbn in L; lia|]. cbn [length] in *. change O with (length (@nil N)). by rewrite IH by (cbn in *; lia).
  - destruct b.
    + destruct os as [|o os]; [cbn in C; lia|]. cbn [length]. change (S (length zs)) with (length (z :: zs)). by rewrite IH by (cbn in *; lia).
    + cbn [length]. by rewrite IH by (cbn in *; lia).
Qed.
Lemma full_unfull bf k0 k1 l : enough bf k0 k1 -> length l = (k0 + k1)%nat ->
  let c := unfull bf k0 l in length c.1 = k0 /\ length c.2 = k1 /\ full bf c.1 c.2 = l.
Proof.
  unfold enough. revert k0 k1 l. induction bf as [|b bf IH]; intros k0 k1 l [C L] H; cbn [unfull].
  { cbn [fst snd full]. rewrite take_length, drop_length, take_drop. split; [lia|]. split; [lia|done]. }
  rewrite countOnes_cons in C. cbn [length] in L. pose proof (countOnes_le bf). destruct l as [|x l]; [cbn in H; lia|]. cbn [length] in H. destruct k0 as [|k].
  - destruct k1 as [|k1]; [lia|]. destruct (IH O k1 l) as (A & B & D); [lia|lia|]. cbv zeta. cbn [fst snd length]. destruct (unfull bf 0 l) as [zs os]. cbn [fst snd] in *.
    destruct zs; [|done]. cbn [full]. split; [done|]. split; [lia|]. by rewrite D.
  - destruct b.
    + destruct k1 as [|k1]; [lia|]. destruct (IH (S k) k1 l) as (A & B & D); [lia|lia|]. cbv zeta. cbn [fst snd length]. destruct (unfull bf (S k) l) as [zs os]. cbn [fst snd] in *.
      destruct zs as [|z zs]; [done|]. cbn [full]. split; [done|]. split; [lia|]. by rewrite D.
    + destruct (IH k k1 l) as (A & B & D); [lia|lia|]. cbv zeta. cbn [fst snd length]. destruct (unfull bf k l) as [zs os]. cbn [fst snd full] in *.
      split; [lia|]. split; [done|]. by rewrite D.
Qed.

(** Rearranging the choices of one filter for another. *)
Definition rearrange (bf bf' : list bool) (k0 : nat) (c : list N * list N) : list N * list N := unfull bf' k0 (full bf c.1 c.2).
Lemma rearrange_ok bf bf' I k0 k1 c : enough bf k0 k1 -> enough bf' k0 k1 -> length bf = length bf' -> choicesOf I k0 k1 c ->
  let c' := rearrange bf bf' k0 c in choicesOf I k0 k1 c' /\ rearrange bf' bf k0 c' = c /\ buildPerm bf' c'.1 c'.2 = buildPerm bf c.1 c.2.
Proof.
  intros E E' L (P & L0 & L1). cbv zeta. unfold rearrange. destruct c as [zs os]. cbn [fst snd] in *. subst k0 k1.
  pose proof (full_perm bf zs os E) as Q. pose proof (Permutation_length Q) as LQ. rewrite app_length in LQ.
  destruct (full_unfull bf' (length zs) (length os) (full bf zs os) E' LQ) as (A & B & D). cbv zeta in *.
  destruct (unfull bf' (length zs) (full bf zs os)) as [zs' os'] eqn:EU. cbn [fst snd] in *.
  split; [|split].
  - split; [|done]. cbn [fst snd]. rewrite <- P, <- Q, <- D. symmetry. apply full_perm. by rewrite A, B.
  - rewrite D. apply unfull_full. exact E.
  - rewrite !full_take by (try done; by rewrite A, B). by rewrite D, L.
Qed.

Section Run.
Context (aes : N -> N -> N) (ro : N -> N -> N) (seed : N) (m nh T n : nat) (total : N).
Context (smsgs : list (N * N)) (sampled : list bool) (I : list N) (k0 k1 : nat).
Context (HT : (0 < T)%nat) (Hw : N.of_nat n * N.of_nat T < 2 ^ 64) (Hm : (0 < m)%nat) (Ht : total <= 2 ^ 32).
Context (ND : NoDup I) (LS : length sampled = length smsgs) (BS : N.of_nat (length smsgs) <= 2 ^ 32) (HI : forall i, i ∈ I -> sampled !! N.to_nat i = Some false).

Lemma held_ok c : choicesOf I k0 k1 c -> otsOk c.1 c.2 (heldMsgs smsgs c.2) smsgs sampled.
Proof using ND LS BS HI.
  clear -ND LS BS HI. intros (P & _). split; [by rewrite P|]. split; [unfold heldMsgs; by rewrite imap_length|]. split; [done|]. split; [done|]. split.
  - intros i Hi. apply HI. by rewrite <- P.
  - intros i Hi. unfold recvMsg, sendMsg, heldMsgs. rewrite list_lookup_imap.
    assert (is_Some (smsgs !! N.to_nat i)) as [x ->].
    { apply lookup_lt_is_Some. rewrite <- LS. apply lookup_lt_is_Some. exists false. apply HI. rewrite <- P. apply elem_of_app. by right. }
    cbn. rewrite N2Nat.id, bool_decide_eq_true_2 by done. done.
Qed.
Theorem perm_hidden R R' mergeOrd : length R = n -> length R' = n -> (n * nh <= k1)%nat -> (m <= k0 + k1)%nat ->
  exists f g : list N * list N -> list N * list N, forall c, choicesOf I k0 k1 c ->
    (choicesOf I k0 k1 (f c) /\ g (f c) = c) /\ (choicesOf I k0 k1 (g c) /\ f (g c) = c) /\
    exists perm mp mp', recvFirst aes ro seed m nh T n total c.1 c.2 (heldMsgs smsgs c.2) R mergeOrd = Done (perm, mp) /\
      recvFirst aes ro seed m nh T n total (f c).1 (f c).2 (heldMsgs smsgs (f c).2) R' mergeOrd = Done (perm, mp').
Proof using HT Hw Hm Ht ND LS BS HI.
  intros HR HR' K M. destruct (filter_ok aes ro seed m nh n R Hm HR) as (bf & E & L & C & _). destruct (filter_ok aes ro seed m nh n R' Hm HR') as (bf' & E' & L' & C' & _).
  assert (enough bf k0 k1) as G by (unfold enough; lia). assert (enough bf' k0 k1) as G' by (unfold enough; lia).
  exists (rearrange bf bf' k0), (rearrange bf' bf k0). intros c Hc.
  destruct (rearrange_ok bf bf' I k0 k1 c G G' ltac:(lia) Hc) as (A & B & D). destruct (rearrange_ok bf' bf I k0 k1 c G' G ltac:(lia) Hc) as (A2 & B2 & _). cbv zeta in *.
  split; [done|]. split; [done|]. set (c' := rearrange bf bf' k0 c) in *.
  pose proof Hc as (_ & X0 & X1). pose proof A as (_ & Y0 & Y1).
  destruct (recvFirst_ok aes ro seed m nh T n total c.1 c.2 (heldMsgs smsgs c.2) smsgs sampled R R HT Hw Hm Ht HR HR (held_ok c Hc) mergeOrd) as
    (b1 & p1 & E1 & F1 & _ & _ & _ & _ & H1 & _); [rewrite E; change (default [] (Some bf)) with bf; lia|lia|].
  destruct (recvFirst_ok aes ro seed m nh T n total c'.1 c'.2 (heldMsgs smsgs c'.2) smsgs sampled R' R' HT Hw Hm Ht HR' HR' (held_ok c' A) mergeOrd) as
    (b2 & p2 & E2 & F2 & _ & _ & _ & _ & H2 & _); [rewrite E'; change (default [] (Some bf')) with bf'; lia|lia|].
  rewrite E in E1. injection E1 as <-. rewrite E' in E2. injection E2 as <-. rewrite D, F1 in F2. injection F2 as <-.
  eexists p1, _, _. split; [exact H1|exact H2].
Qed.
End Run.

(** Sorted lists of choices: equal bits get increasing entries. *)
Lemma buildPerm_ones bf zs os perm i : buildPerm bf zs os = Some perm -> i ∈ perm -> exists k, i = k mod 2 ^ 32 /\ (k ∈ zs \/ k ∈ os).
Proof.
  revert zs os perm. induction bf as [|b bf IH]; intros zs os perm; cbn [buildPerm]; [intros [= <-] H; by apply elem_of_nil in H|].
  assert (forall k l zs' os', buildPerm bf zs' os' = Some l -> (k ∈ zs \/ k ∈ os) -> (forall x, x ∈ zs' -> x ∈ zs) -> (forall x, x ∈ os' -> x ∈ os) ->
    i ∈ k mod 2 ^ 32 :: l -> exists k, i = k mod 2 ^ 32 /\ (k ∈ zs \/ k ∈ os)) as K.
  { intros k l zs' os' E Hk Z O Hi. apply elem_of_cons in Hi as [->|Hi]; [eauto|]. destruct (IH _ _ _ E Hi) as (k' & -> & [H|H]); eauto. }
  destruct zs as [|z zs].
  - destruct os as [|o os]; [done|]. destruct (buildPerm bf [] os) as [l|] eqn:E; [|done]. intros [= <-]. apply (K o l [] os); [done|right; left|done|by right].
  - destruct b.
    + destruct os as [|o os]; [done|]. destruct (buildPerm bf (z :: zs) os) as [l|] eqn:E; [|done]. intros [= <-]. apply (K o l (z :: zs) os); [done|right; left|done|by right].
    + destruct (buildPerm bf zs os) as [l|] eqn:E; [|done]. intros [= <-]. apply (K z l zs os); [done|left; left|by right|done].
Qed.
(** The entries of set bits are ones, in order. *)
Fixpoint onesAt (bf : list bool) (perm : list N) : list N :=
  match bf, perm with
  | true :: bf', i :: perm' => i :: onesAt bf' perm'
  | false :: bf', _ :: perm' => onesAt bf' perm'
  | _, _ => []
  end.
Lemma onesAt_sub bf zs os perm : buildPerm bf zs os = Some perm -> sublist (onesAt bf perm) (map (fun i => i mod 2 ^ 32) os).
Proof.
  revert zs os perm. induction bf as [|b bf IH]; intros zs os perm; cbn [buildPerm]; [intros [= <-]; apply sublist_nil_l|].
  destruct zs as [|z zs].
  - destruct os as [|o os]; [done|]. destruct (buildPerm bf [] os) as [l|] eqn:E; [|done]. intros [= <-]. cbn [onesAt map]. apply IH in E. destruct b; by constructor.
  - destruct b.
    + destruct os as [|o os]; [done|]. destruct (buildPerm bf (z :: zs) os) as [l|] eqn:E; [|done]. intros [= <-]. cbn [onesAt map]. apply IH in E. by constructor.
    + destruct (buildPerm bf zs os) as [l|] eqn:E; [|done]. intros [= <-]. cbn [onesAt map]. by apply IH in E.
Qed.
Lemma onesAt_order (bf : list bool) (perm : list N) p q i j : StronglySorted N.lt (onesAt bf perm) -> bf !! p = Some true -> bf !! q = Some true -> (p < q)%nat ->
  perm !! p = Some i -> perm !! q = Some j -> i < j.
Proof.
  assert (forall (bf : list bool) (perm : list N) q j, bf !! q = Some true -> perm !! q = Some j -> j ∈ onesAt bf perm) as K.
  { clear. intros bf. induction bf as [|b bf IH]; intros [|x perm] [|q] j; cbn; try done.
    - intros [= ->] [= ->]. left.
    - intros H1 H2. destruct b; [right|]; eauto. }
  revert perm p q. induction bf as [|b bf IH]; intros [|x perm] [|p] [|q]; cbn [lookup list_lookup]; try done; try lia.
  - intros S [= ->] Hq _ [= ->] Hj. cbn [onesAt] in S. apply StronglySorted_inv in S as [_ F]. rewrite Forall_forall in F. apply F. eauto.
  - intros S Hp Hq L Hi Hj. apply (IH perm p q); try done; [|lia]. destruct b; cbn [onesAt] in S; [by apply StronglySorted_inv in S as [S _]|done].
Qed.
Lemma sorted_sub {A} (R : relation A) (l k : list A) : sublist l k -> StronglySorted R k -> StronglySorted R l.
Proof.
  intros H. induction H as [|x l k H IH|x l k H IH]; intros S; [constructor| |].
  - apply StronglySorted_inv in S as [S F]. constructor; [auto|]. rewrite Forall_forall in *. intros y Hy. apply F. by apply (elem_of_submseteq l k y Hy), sublist_submseteq.
  - apply StronglySorted_inv in S as [S _]. auto.
Qed.
Theorem sorted_shows aes ro seed m nh T n total zeros ones rmsgs R mergeOrd perm mp x : StronglySorted N.lt ones -> (forall i, i ∈ ones -> i < 2 ^ 32) -> (0 < m)%nat ->
  recvFirst aes ro seed m nh T n total zeros ones rmsgs R mergeOrd = Done (perm, mp) -> x ∈ R -> increasesAt perm (filterPos aes ro seed (N.of_nat m) nh x).
Proof.
  intros S B Hm E Hx. unfold recvFirst in E. destruct (length R =? n)%nat eqn:EL; [|done]. cbn [negb] in E. destruct (2 ^ 32 <? total); [done|].
  apply Nat.eqb_eq in EL. destruct (filter_ok aes ro seed m nh n R Hm EL) as (bf & EB & L & _ & K). rewrite EB in E.
  destruct (buildPerm bf zeros ones) as [perm'|] eqn:EP; [|done]. destruct (mapM _ _) as [es|]; [|done]. injection E as -> _.
  intros p q i j Hp Hq L' Hi Hj.
  assert (forall p, p ∈ filterPos aes ro seed (N.of_nat m) nh x -> bf !! N.to_nat p = Some true) as K'.
  { intros p' Hp'. apply K. apply elem_of_concat. exists (filterPos aes ro seed (N.of_nat m) nh x). split; [done|]. apply elem_of_list_fmap. eauto. }
  apply (onesAt_order bf perm (N.to_nat p) (N.to_nat q)); try done; [|by apply K'|by apply K'|lia].
  eapply sorted_sub; [by eapply onesAt_sub|]. assert (map (fun i => i mod 2 ^ 32) ones = ones) as ->; [|done].
  etrans; [apply map_ext_in|apply map_id]. intros k Hk. apply N.mod_small, B. by apply elem_of_list_In.
Qed.
