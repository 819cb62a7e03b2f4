From stdpp Require Import sorting sets.
From Verif Require Import Base Partition_Model Sched_Model Sched_Spec Sched_Proofs Sched_Proofs2 Threads_Model Threads_Proofs Threads_Proofs2 Init_Model Init_Spec.

(** ** Base OTs *)
Lemma agree_take n pairs ch : otAgree pairs ch -> otAgree (take n pairs) (mkChosen (take n (choiceBits ch)) (take n (choiceMsgs ch))).
Proof.
  intros (H1 & H2 & H). split_and!; cbn; rewrite ?take_length; [lia|lia|]. intros i p b m Hp Hb Hm.
  cbn in Hb, Hm. apply lookup_take_Some in Hp as [Hp _], Hb as [Hb _], Hm as [Hm _]. by eapply H.
Qed.
Lemma agree_drop n pairs ch : otAgree pairs ch -> otAgree (drop n pairs) (mkChosen (drop n (choiceBits ch)) (drop n (choiceMsgs ch))).
Proof.
  intros (H1 & H2 & H). split_and!; cbn; rewrite ?drop_length; [lia|lia|]. intros i p b m Hp Hb Hm.
  cbn in Hb, Hm. rewrite !lookup_drop in *. by eapply H.
Qed.
Lemma rr17a_base baseOt kos count cs csS csR : correctOt baseOt -> correctKos kos ->
  length cs = 128%nat -> length csS = (count + 128)%nat -> length csR = count ->
  let '(r, s) := rr17aBase baseOt kos count cs csS csR in
  length (recvBase r) = count /\ otAgree (recvBase r) (sendBase s) /\ length (recvBase s) = count /\ otAgree (recvBase s) (sendBase r).
Proof.
  intros Hb Hk Hcs HcsS HcsR. unfold rr17aBase. destruct (baseOt cs) as [bm ksb] eqn:E1. destruct (Hb cs) as [L1 A1]. rewrite E1 in L1, A1. cbn in L1, A1.
  destruct (kos bm (mkChosen cs ksb) csS) as [sm rm] eqn:E2. destruct (Hk bm (mkChosen cs ksb) csS ltac:(lia) A1) as [L2 A2]. rewrite E2 in L2, A2. cbn in L2, A2.
  pose proof (agree_take count _ _ A2) as A3. pose proof (agree_drop count _ _ A2) as A4. cbn in A3, A4.
  assert (take kosBase (drop count csS) = drop count csS) as -> by (apply take_ge; rewrite drop_length; unfold kosBase; lia).
  destruct (kos (drop count sm) _ csR) as [sm2 rm2] eqn:E3.
  destruct (Hk (drop count sm) (mkChosen (drop count csS) (drop count rm)) csR) as [L5 A5]; [rewrite drop_length; lia|done|]. rewrite E3 in L5, A5. cbn in L5, A5.
  cbn. split_and!; [rewrite take_length; lia|done|lia|done].
Qed.
Lemma rr17b_base baseOt kos count cs csS : correctOt baseOt -> correctKos kos ->
  length cs = 128%nat -> length csS = count ->
  let '(r, s) := rr17bBase baseOt kos cs csS in length r = count /\ otAgree r s.
Proof.
  intros Hb Hk Hcs HcsS. unfold rr17bBase. destruct (baseOt cs) as [bm ksb] eqn:E1. destruct (Hb cs) as [L1 A1]. rewrite E1 in L1, A1. cbn in L1, A1.
  destruct (kos bm (mkChosen cs ksb) csS) as [sm rm] eqn:E2. destruct (Hk bm (mkChosen cs ksb) csS ltac:(lia) A1) as [L2 A2]. rewrite E2 in L2, A2. cbn in L2, A2.
  split; [lia|done].
Qed.

(** ** Counts *)
Lemma pieces_total step fuel s e cap : 0 < step -> (N.to_nat (e - s) <= fuel)%nat -> total (map (fun p : N * N => p.2 * cap) (pieces step fuel s e)) = (e - s) * cap.
Proof.
  intros Hs. revert s. induction fuel as [|fuel IH]; intros s Hf; cbn [pieces map].
  - replace (e - s) with 0 by lia. done.
  - destruct (N.ltb_spec s e) as [H|H]; [|cbn; replace (e - s) with 0 by lia; done]. cbn [map total foldr snd]. change (foldr N.add 0) with total. rewrite IH by lia. nia.
Qed.
Lemma rrCorr_total step cap r : 0 < step -> total (rrCorr step cap r) = (r.2 - r.1) * cap.
Proof. intros H. unfold rrCorr, piecesOf. by apply pieces_total. Qed.
Lemma rr17a_counts P t : 0 < aStep P -> total (aCorr P t) = aCount P t.
Proof. intros H. unfold aCorr, aCount. rewrite rrCorr_total by done. destruct (evenSplit _ _ _) as [s e]. cbn. rewrite N.mul_sub_distr_r. done. Qed.
Lemma ceil_div b T : 0 < T -> b <= (b + T - 1) / T * T.
Proof. intros H. pose proof (N.div_mod (b + T - 1) T ltac:(lia)). pose proof (N.mod_lt (b + T - 1) T ltac:(lia)). set (q := (b + T - 1) / T) in *. clearbody q. nia. Qed.
Lemma even_width b T u c : 0 < T -> b <= c * T -> b * (u + 1) / T - b * u / T <= c.
Proof.
  intros HT Hc. assert (b * (u + 1) / T <= b * u / T + c); [|lia].
  replace (b * u / T + c) with ((b * u + c * T) / T) by (apply N.div_add; lia). apply N.div_le_mono; [lia|]. rewrite N.mul_add_distr_l, N.mul_1_r. lia.
Qed.
Lemma rr17b_counts P t : 0 < bStep P -> (t < bT P)%nat -> (bBins P + N.of_nat (bT P)) * N.of_nat (bT P) < two64 ->
  total (bCorrS P t) <= bCount P t /\ total (bCorrR P t) <= bCount P t.
Proof.
  intros Hs Ht Hw. unfold bCorrS, bCorrR, bCount. rewrite !rrCorr_total by done. set (T := N.of_nat (bT P)) in *. set (b := bBins P) in *.
  assert (0 < T) as HT by (unfold T; lia). assert (N.of_nat t < T) as Ht' by (unfold T; lia). set (u := N.of_nat t) in *. clearbody T u b.
  assert (b + T <= (b + T) * T) as Hw2 by nia.
  pose proof (ceil_div b T HT) as Hc. split; apply N.mul_le_mono_r.
  - unfold ceilSplit. cbn [fst snd]. rewrite (N.mod_small (b + T - 1)) by lia.
    assert ((b + T - 1) / T * T <= b + T - 1) as Hc2 by (rewrite N.mul_comm; apply N.mul_div_le; lia). set (c := (b + T - 1) / T) in *. clearbody c.
    assert (c <= b + T) by nia. rewrite !N.mod_small by nia. rewrite N.mul_add_distr_r. lia.
  - unfold evenSplit. cbn [fst snd]. rewrite (N.mod_small (b + T - 1)) by lia. rewrite !N.mod_small by nia. by apply even_width.
Qed.

(** ** Coin toss *)
Lemma toss_force t : exists p, forall commit s, tossAgainst commit s p = Done t.
Proof. exists (mkPeer (fun _ => 0) (fun _ s => N.lxor s t)). intros commit s. unfold tossAgainst, hashingSeed, secondMsg. cbn. by rewrite <- N.lxor_assoc, N.lxor_nilpotent, N.lxor_0_l. Qed.
Lemma toss_unopened commit s : exists p, (exists h, tossAgainst commit s p = Done h) /\
  forall o, o = peerSecond p (firstMsg commit s) s -> peerFirst p (firstMsg commit s) <> commit o.
Proof. exists (mkPeer (fun _ => commit 0 + 1) (fun _ _ => 0)). split; [by eexists|]. intros o ->. cbn. lia. Qed.
Lemma toss_honest commit s1 s2 : tossAgainst commit s1 (honestPeer commit s2) = tossAgainst commit s2 (honestPeer commit s1).
Proof. unfold tossAgainst, hashingSeed, honestPeer, secondMsg. cbn. by rewrite N.lxor_comm. Qed.
Lemma toss_random commit s2 t : exists s1, tossAgainst commit s1 (honestPeer commit s2) = Done t /\ forall s, tossAgainst commit s (honestPeer commit s2) = Done t -> s = s1.
Proof.
  exists (N.lxor t s2). unfold tossAgainst, hashingSeed, honestPeer, secondMsg. cbn. rewrite N.lxor_assoc, N.lxor_nilpotent, N.lxor_0_r. split; [done|].
  intros s [= <-]. by rewrite N.lxor_assoc, N.lxor_nilpotent, N.lxor_0_r.
Qed.

(** OTs that number their messages; the extension adds the first messages of its base, and works only on 128 of them. *)
Definition exOt (from : N) (cs : list bool) : list (N * N) * list N :=
  (imap (fun i _ => (from + 2 * N.of_nat i, from + 2 * N.of_nat i + 1)) cs, imap (fun i (b : bool) => from + 2 * N.of_nat i + if b then 1 else 0) cs).
Definition exKos (pairs : list (N * N)) (ch : chosen) (cs : list bool) : list (N * N) * list N :=
  if (length pairs =? 128)%nat then exOt (1000 + default 0 (fst <$> head pairs)) cs else ([], []).
Lemma exOt_agree from cs : length (exOt from cs).1 = length cs /\ otAgree (exOt from cs).1 (mkChosen cs (exOt from cs).2).
Proof.
  unfold exOt. cbn [fst snd]. split; [by rewrite imap_length|]. split_and!; cbn [choiceBits choiceMsgs]; rewrite ?imap_length; [done|done|]. intros i p b m Hp Hb Hm.
  cbn [choiceBits choiceMsgs] in Hb, Hm. rewrite list_lookup_imap, Hb in Hp. rewrite list_lookup_imap, Hb in Hm. injection Hp as <-. injection Hm as <-. destruct b; cbn; lia.
Qed.
