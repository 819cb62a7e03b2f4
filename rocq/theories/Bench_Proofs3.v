(** The sets of the benchmark drivers and the command line. *)
From stdpp Require Import sets.
From Verif Require Import Base Sched_Model Bench_Model Bench_Spec Bench_Proofs2.

Lemma same_sets b : b ∈ [Rr17a; Rr17aSM; Rr17b; Grr18] -> sameSets b.
Proof.
  intros Hb prng l. unfold benchSets. rewrite <- passes_same. rewrite !elem_of_cons in Hb. destruct Hb as [->|[->|[->|[->|Hb]]]]; [done..|by apply elem_of_nil in Hb].
Qed.
Lemma driver_length st extra ps : forall pos, length (driver st extra pos ps) = length ps.
Proof. induction ps as [|p ps IH]; intros pos; cbn; [done|]. by rewrite IH. Qed.
Definition itemsBefore (ps : list pass) (k : nat) : nat := sum_list (map pItems (take k ps)).
Lemma driver_lookup st extra ps : forall pos k p, ps !! k = Some p -> driver st extra pos ps !! k = Some (map st (seq (pos + itemsBefore ps k + k * extra) (pItems p))).
Proof.
  induction ps as [|q ps IH]; intros pos k p Hk; [done|]. destruct k as [|k]; cbn in Hk |- *.
  - injection Hk as ->. unfold itemsBefore. cbn. by rewrite !Nat.add_0_r.
  - rewrite (IH _ _ _ Hk). unfold itemsBefore. cbn. do 3 f_equal. lia.
Qed.
Lemma sets_of prng b sender l k p : passes b true l !! k = Some p ->
  benchSets prng b sender l !! k = Some (map (prng (seedOf b sender)) (seq (itemsBefore (passes b true l) k + k * drawsSeed b sender) (pItems p))).
Proof.
  intros Hk. unfold benchSets. assert (passes b sender l = passes b true l) as -> by (destruct sender; [done|symmetry; apply passes_same]). by rewrite (driver_lookup _ _ _ _ _ _ Hk).
Qed.
Lemma sets_length prng b sender l k s : benchSets prng b sender l !! k = Some s -> exists p, passes b sender l !! k = Some p /\ length s = pItems p.
Proof.
  intros Hs. unfold benchSets in Hs. destruct (passes b sender l !! k) as [p|] eqn:Hp.
  - rewrite (driver_lookup _ _ _ _ _ _ Hp) in Hs. injection Hs as <-. exists p. by rewrite map_length, seq_length.
  - apply lookup_ge_None in Hp. rewrite <- (driver_length (prng (seedOf b sender)) (drawsSeed b sender) _ 0) in Hp. apply lookup_ge_None in Hp. congruence.
Qed.
Lemma common_window (st : nat -> N) a n d : (forall i j, st i = st j -> i = j) ->
  length (common (map st (seq a n)) (map st (seq (a + d) n))) = (n - d)%nat.
Proof.
  intros Hinj. unfold common.
  assert (filter (fun x => x ∈ map st (seq (a + d) n)) (map st (seq a n)) = map st (seq (a + d) (n - d))) as ->; [|by rewrite map_length, seq_length].
  assert (forall m b, (b + m = a + n)%nat -> filter (fun x => x ∈ map st (seq (a + d) n)) (map st (seq b m)) = map st (seq (Nat.max b (a + d)) (m - (Nat.max b (a + d) - b)))) as H.
  { induction m as [|m IH]; intros b E; [done|]. cbn [seq map]. destruct (decide (a + d <= b)%nat) as [Hb|Hb].
    - rewrite filter_cons_True.
      + rewrite IH by lia. replace (Nat.max b (a + d)) with b by lia. replace (Nat.max (S b) (a + d)) with (S b) by lia. rewrite !Nat.sub_diag, !Nat.sub_0_r. done.
      + apply elem_of_list_fmap. exists b. split; [done|]. apply elem_of_seq. lia.
    - rewrite filter_cons_False.
      + rewrite IH by lia. replace (Nat.max b (a + d)) with (a + d)%nat by lia. replace (Nat.max (S b) (a + d)) with (a + d)%nat by lia. f_equal. f_equal. lia.
      + intros X. apply elem_of_list_fmap in X as (i & E' & Hi). apply Hinj in E'. apply elem_of_seq in Hi. lia. }
  rewrite H by lia. replace (Nat.max a (a + d)) with (a + d)%nat by lia. f_equal. f_equal. lia.
Qed.
(** In pass [k] the sets of RR16, DCW, DKT and ECDH are [k] blocks apart. *)
Lemma shifted b prng l k p : b ∈ [DcwR; Rr16; Dkt; Ecdh] -> passes b true l !! k = Some p -> (forall i j, prng (seedOf b true) i = prng (seedOf b true) j -> i = j) ->
  exists S R, benchSets prng b true l !! k = Some S /\ benchSets prng b false l !! k = Some R /\ length S = pItems p /\ length R = pItems p /\ length (common R S) = (pItems p - k)%nat.
Proof.
  intros Hb Hk Hinj. eexists _, _. split; [by apply sets_of|]. split; [by apply sets_of|]. rewrite !map_length, !seq_length. split; [done|]. split; [done|].
  assert (seedOf b false = seedOf b true /\ drawsSeed b true = 1%nat /\ drawsSeed b false = 0%nat) as (-> & -> & ->) by (rewrite !elem_of_cons in Hb; destruct Hb as [->|[->|[->|[->|Hb]]]]; [done..|by apply elem_of_nil in Hb]).
  rewrite Nat.mul_0_r, Nat.mul_1_r, Nat.add_0_r. by apply common_window.
Qed.
Lemma kkrt_sets prng l k p : passes Kkrt true l !! k = Some p -> (forall i j, prng (seedOf Kkrt true) i <> prng (seedOf Kkrt false) j) ->
  exists S R, benchSets prng Kkrt true l !! k = Some S /\ benchSets prng Kkrt false l !! k = Some R /\ length S = pItems p /\ length R = pItems p /\ common R S = [].
Proof.
  intros Hk Hd. eexists _, _. split; [by apply sets_of|]. split; [by apply sets_of|]. rewrite !map_length, !seq_length. split; [done|]. split; [done|].
  unfold common. generalize (seq (itemsBefore (passes Kkrt true l) k + k * drawsSeed Kkrt false) (pItems p)). intros is. induction is as [|i is IH]; [done|]. cbn [map]. rewrite filter_cons_False; [done|].
  intros X. apply elem_of_list_fmap in X as (j & E & _). by apply (Hd j i).
Qed.
(** Within one driver no set has an item twice, and no two sets share one. *)
Lemma driver_fresh prng b sender l : (forall i j, prng (seedOf b sender) i = prng (seedOf b sender) j -> i = j) -> NoDup (concat (benchSets prng b sender l)).
Proof.
  intros Hinj. unfold benchSets. generalize 0%nat (passes b sender l). intros pos ps.
  assert (forall ps pos x, x ∈ concat (driver (prng (seedOf b sender)) (drawsSeed b sender) pos ps) -> exists i, (pos <= i)%nat /\ x = prng (seedOf b sender) i) as Hge.
  { clear ps pos. induction ps as [|p ps IH]; intros pos x Hx; cbn in Hx; [by apply elem_of_nil in Hx|]. apply elem_of_app in Hx as [Hx|Hx].
    - apply elem_of_list_fmap in Hx as (i & -> & Hi). apply elem_of_seq in Hi. exists i. split; [lia|done].
    - destruct (IH _ _ Hx) as (i & Hi & ->). exists i. split; [lia|done]. }
  revert pos. induction ps as [|p ps IH]; intros pos; cbn; [constructor|]. apply NoDup_app. split; [|split; [|apply IH]].
  - apply (NoDup_fmap_2_strong (prng (seedOf b sender))); [auto|apply NoDup_seq].
  - intros x Hx Hx2. apply elem_of_list_fmap in Hx as (i & -> & Hi). apply elem_of_seq in Hi. destruct (Hge _ _ _ Hx2) as (j & Hj & E). apply Hinj in E. lia.
Qed.

Lemma pow_small v : v < 31 -> powItems v = Done (2 ^ v).
Proof. intros H. unfold powItems. rewrite (proj2 (N.ltb_lt _ _) H), N.shiftl_1_l. done. Qed.
Lemma pow_only v n : powItems v = Done n -> n = 2 ^ v -> v < 31.
Proof.
  unfold powItems. destruct (v <? 31) eqn:E; [intros _ _; by apply N.ltb_lt|]. destruct (v =? 31) eqn:E2; [|discriminate].
  apply N.eqb_eq in E2 as ->. intros X Y. injection X as <-. vm_compute in Y. discriminate Y.
Qed.
Lemma fold_max ts : forall t x, (x = t \/ x ∈ ts) -> (x <= fold_left Nat.max ts t)%nat.
Proof.
  induction ts as [|u ts IH]; intros t x Hx; cbn; [destruct Hx as [->|Hx]; [done|by apply elem_of_nil in Hx]|].
  assert (forall a b, (a <= b)%nat -> (fold_left Nat.max ts a <= fold_left Nat.max ts b)%nat) as Mono. { clear. induction ts as [|u ts IH]; intros a b H; cbn; [done|]. apply IH. lia. }
  rewrite elem_of_cons in Hx. destruct Hx as [->|[->|Hx]].
  - etransitivity; [apply (IH t t); by left|]. apply Mono. lia.
  - etransitivity; [apply (IH u u); by left|]. apply Mono. lia.
  - apply IH. by right.
Qed.
Lemma channels_ok ts t : t ∈ ts -> exists m, maxThreads ts = Some m /\ getChannels m t = Some (seq 0 t).
Proof.
  intros H. destruct ts as [|u ts]; [by apply elem_of_nil in H|]. eexists. split; [done|]. unfold getChannels. rewrite (proj2 (Nat.leb_le _ _)); [done|].
  apply fold_max. rewrite elem_of_cons in H. done.
Qed.
