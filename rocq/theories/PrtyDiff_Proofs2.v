(** Proofs about the look-up of the masks and the steps. *)
From Verif Require Import Base Partition_Model Ecdh_Model File_Model File_Spec File_Proofs Balanced_Model Prty_Model Prty_Proofs PrtyDiff_Model PrtyDiff_Spec PrtyDiff_Proofs.
Local Open Scope nat_scope.

(** * The look-up *)
Lemma emplace_sub l m e : e ∈ emplace32 l m -> e ∈ l \/ e ∈ m.
Proof.
  revert m. induction l as [|a l IH]; intros m H; cbn in H; [by right|]. apply IH in H as [H|H]; [left; by right|]. destruct (existsb _ m); [by right|].
  apply elem_of_app in H as [H|H]; [by right|]. apply elem_of_list_singleton in H as ->. left. by left.
Qed.
Lemma emplace_nodup l m : NoDup (map (fun e : N * nat => key32 e.1) (m ++ l)) -> emplace32 l m = m ++ l.
Proof.
  revert m. induction l as [|a l IH]; intros m H; cbn; [by rewrite app_nil_r|]. assert (existsb (fun e' : N * nat => key32 e'.1 =? key32 a.1)%N m = false) as ->.
  - apply not_true_is_false. intros E. apply existsb_exists in E as (e & He & Ek). apply N.eqb_eq in Ek. rewrite map_app in H. apply NoDup_app in H as (_ & H & _). apply (H (key32 e.1)).
    + apply elem_of_list_fmap. exists e. split; [done|]. by apply elem_of_list_In.
    + rewrite Ek. cbn. by left.
  - rewrite IH; [by rewrite <- app_assoc|]. by rewrite <- app_assoc.
Qed.
Lemma find_key es e x : NoDup (map (fun e : N * nat => key32 e.1) es) -> e ∈ es -> key32 x = key32 e.1 -> find (fun e => key32 e.1 =? key32 x)%N es = Some e.
Proof.
  induction es as [|a es IH]; intros Hnd He Hk; [by apply elem_of_nil in He|]. cbn [map] in Hnd. apply NoDup_cons in Hnd as [Hna Hnd]. cbn. apply elem_of_cons in He as [<- |He].
  - by rewrite Hk, N.eqb_refl.
  - destruct (N.eqb_spec (key32 a.1) (key32 x)) as [E|E]; [|by apply IH]. exfalso. apply Hna. apply elem_of_list_fmap. exists e. split; [|done]. congruence.
Qed.
Lemma lookups_in m vs x k e : (x, k) ∈ vs -> find (fun e => key32 e.1 =? key32 x)%N m = Some e -> low k x = low k e.1 -> e.2 ∈ lookups m vs.
Proof.
  induction vs as [|[y j] vs IH]; intros Hv Hf Hl; [by apply elem_of_nil in Hv|]. cbn. apply elem_of_cons in Hv as [E|Hv].
  - injection E as <- <-. rewrite Hf, Hl, N.eqb_refl. by left.
  - specialize (IH Hv Hf Hl). clear Hf. destruct (find (fun e => key32 e.1 =? key32 y)%N m) as [e'|]; [|done]. destruct (low j y =? low j e'.1)%N; [by right|done].
Qed.
Lemma lookups_out m vs i : i ∈ lookups m vs -> exists v e, v ∈ vs /\ e ∈ m /\ e.2 = i /\ low v.2 v.1 = low v.2 e.1.
Proof.
  induction vs as [|[y j] vs IH]; intros Hi; [by apply elem_of_nil in Hi|]. cbn in Hi. destruct (find _ m) as [e|] eqn:Ef.
  - destruct (N.eqb_spec (low j y) (low j e.1)) as [E|E].
    + apply elem_of_cons in Hi as [-> |Hi].
      * exists (y, j), e. split; [by left|]. split; [|done]. apply find_some in Ef as [Ef _]. by apply elem_of_list_In.
      * destruct (IH Hi) as (v & e' & Hv & He). exists v, e'. split; [by right|done].
    + destruct (IH Hi) as (v & e' & Hv & He). exists v, e'. split; [by right|done].
  - destruct (IH Hi) as (v & e' & Hv & He). exists v, e'. split; [by right|done].
Qed.
Lemma key_low x : key32 x = low 4 x.
Proof. done. Qed.
Lemma stands_low h k v m : standsFor h v m -> k <= h -> low k v.1 = low k m.
Proof. intros [E Hh] Hk. rewrite <- (low_low v.2 k v.1), <- (low_low v.2 k m) by lia. by rewrite E. Qed.
Lemma match_ok mem h b size ms buf g1 g2 es : 4 <= h -> h <= 16 -> h <= b -> Forall (fun m => (m < 2 ^ 128)%N) ms -> distinctLow h ms -> encode h b size ms = Done buf -> holdsBuf mem buf ->
  NoDup (map (fun e : N * nat => key32 e.1) es) ->
  exists vs, decode (length buf) h b (peekMem mem) g1 g2 = Done vs /\
    (forall e, e ∈ es -> e.1 ∈ take (length ms - 1 + (if length (streamBytes h b ms) <? size then 1 else 0)) ms -> e.2 ∈ lookups (emplace32 es []) vs) /\
    (forall i, i ∈ lookups (emplace32 es []) vs -> exists e, e ∈ es /\ e.2 = i /\ ((exists m, m ∈ ms /\ low h m = low h e.1) \/ low b e.1 = 0%N)).
Proof.
  intros H4 H16 Hhb Hbl Hdl Ee Hmem Hnd. destruct (exchange_masks mem h b size ms buf g1 g2) as (vs & rest & Ed & Hvs & Hrest); [lia|done..|]. exists (vs ++ rest). split; [done|].
  rewrite (emplace_nodup es []) by done. cbn [app]. split.
  - intros e He Hm. apply elem_of_list_lookup in Hm as [i Hi]. destruct (Forall2_lookup_r _ _ _ _ _ Hvs Hi) as ([x k] & Hv & Hs). apply (lookups_in es (vs ++ rest) x k e).
    + apply elem_of_app. left. apply elem_of_list_lookup. by exists i.
    + apply find_key; [done|done|]. rewrite !key_low. exact (stands_low h 4 (x, k) e.1 Hs H4).
    + apply Hs.
  - intros i Hi. apply lookups_out in Hi as (v & e & Hv & He & <- & El). exists e. split; [done|]. split; [done|]. apply elem_of_app in Hv as [Hv|Hv].
    + left. apply elem_of_list_lookup in Hv as [j Hv]. destruct (Forall2_lookup_l _ _ _ _ _ Hvs Hv) as (m & Hm & Hs). exists m. split.
      * apply elem_of_list_lookup_2 in Hm. by eapply elem_of_take in Hm as (? & ?%elem_of_list_lookup_2 & _).
      * rewrite <- (stands_low h h v m Hs) by done. destruct Hs as [_ Hk]. rewrite <- (low_low v.2 h v.1), <- (low_low v.2 h e.1) by done. by rewrite El.
    + right. rewrite Forall_forall in Hrest. destruct (Hrest v Hv) as [Eb E0]. rewrite Eb in El. by rewrite <- El.
Qed.

(** * Lengths *)
Lemma tail_len h b prev ms : length (tailBytes h b prev ms) = h * length ms + b * escapes h (prev :: ms).
Proof.
  revert prev. induction ms as [|m ms IH]; intros prev; [cbn; lia|].
  change (escapes h (prev :: m :: ms)) with ((if escaped h prev m then 1 else 0) + escapes h (m :: ms)). cbn [tailBytes length]. rewrite app_length, IH. destruct (escaped h prev m); rewrite ?app_length, ?replicate_length, ?bytesLE_length; lia.
Qed.
Lemma stream_len h b m ms : length (streamBytes h b (m :: ms)) = b + h * length ms + b * escapes h (m :: ms).
Proof. unfold streamBytes. rewrite app_length, bytesLE_length, tail_len. lia. Qed.
Lemma encode_exact h b size ms : h <= 16 -> 0 < length ms ->
  encode h b size ms = if b + h * (length ms - 1) + b * escapes h ms <=? size then Done (streamBytes h b ms ++ replicate (size - length (streamBytes h b ms)) 0%N) else UB.
Proof. intros Hh Hl. destruct ms as [|m ms]; [cbn in Hl; lia|]. rewrite encode_ok by done. rewrite stream_len. cbn [length]. rewrite Nat.sub_succ, Nat.sub_0_r. done. Qed.
Lemma bufSize_ge n h : n * h + 2 * n * h / 100 <= bufSize n h.
Proof.
  unfold bufSize. assert (N.of_nat (n * h + 2 * n * h / 100) <= 102 * N.of_nat n * N.of_nat h / 100)%N as H; [|lia].
  rewrite Nat2N.inj_add, Nat2N.inj_div, !Nat2N.inj_mul. change (N.of_nat 2) with 2%N. change (N.of_nat 100) with 100%N.
  apply N.div_le_lower_bound; [done|]. pose proof (N.mul_div_le (2 * N.of_nat n * N.of_nat h) 100 ltac:(done)). lia.
Qed.
Lemma best_fits n h b : 100 <= n -> 6 <= h -> b <= 16 -> b + h * (n - 1) < bufSize n h.
Proof. intros Hn Hh Hb. pose proof (bufSize_ge n h) as H. assert (12 <= 2 * n * h / 100) as H2. { apply Nat.div_le_lower_bound; [lia|]. nia. } nia. Qed.
Lemma best_ok mem h b ms g1 g2 es : 6 <= h -> h <= b -> b <= 16 -> 100 <= length ms -> escapes h ms = 0 -> Forall (fun m => (m < 2 ^ 128)%N) ms -> distinctLow h ms -> NoDup (map (fun e : N * nat => key32 e.1) es) ->
  exists buf, sendBest h b ms = Done buf /\ (holdsBuf mem buf -> exists vs, decode (length buf) h b (peekMem mem) g1 g2 = Done vs /\
    (forall e, e ∈ es -> e.1 ∈ ms -> e.2 ∈ lookups (emplace32 es []) vs) /\
    (forall i, i ∈ lookups (emplace32 es []) vs -> exists e, e ∈ es /\ e.2 = i /\ ((exists m, m ∈ ms /\ low h m = low h e.1) \/ low b e.1 = 0%N))).
Proof.
  intros Hh Hhb Hb Hn He Hbl Hdl Hnd. pose proof (best_fits (length ms) h b Hn Hh Hb) as Hf. unfold sendBest. pose proof (encode_exact h b (bufSize (length ms) h) ms ltac:(lia) ltac:(lia)) as E.
  rewrite He, Nat.mul_0_r, Nat.add_0_r in E. replace (_ <=? _) with true in E by (symmetry; apply Nat.leb_le; lia). eexists. split; [exact E|]. intros Hm.
  destruct (match_ok mem h b (bufSize (length ms) h) ms _ g1 g2 es ltac:(lia) ltac:(lia) Hhb Hbl Hdl E Hm Hnd) as (vs & Ed & H1 & H2). exists vs. split; [done|]. split; [|done].
  assert (length (streamBytes h b ms) = b + h * (length ms - 1)) as El. { destruct ms as [|m ms]; [cbn in Hn; lia|]. rewrite stream_len, He. cbn [length]. lia. }
  rewrite El in H1. replace (_ <? _) with true in H1 by (symmetry; apply Nat.ltb_lt; lia). replace (length ms - 1 + 1) with (length ms) in H1 by lia. by rewrite firstn_all in H1.
Qed.

(** * The steps *)
Lemma steps_ok fuel step e i : 0 < step -> e - 1 - i <= fuel ->
  (forall s c, (s, c) ∈ stepsFrom fuel step e i -> i <= s /\ 0 < c <= step /\ s + c <= e - 1) /\ (i < e - 1 -> forall j, i <= j <= e - 1 -> exists s c, (s, c) ∈ stepsFrom fuel step e i /\ s <= j <= s + c).
Proof.
  intros Hs. revert i. induction fuel as [|f IH]; intros i Hf.
  - split; [intros s c H; by apply elem_of_nil in H|]. intros Hi. lia.
  - cbn [stepsFrom]. destruct (Nat.ltb_spec i (e - 1)) as [Hi|Hi].
    + destruct (IH (i + step)) as [H1 H2]; [lia|]. split.
      * intros s c H. apply elem_of_cons in H as [E|H]; [injection E as -> ->; lia|]. apply H1 in H. lia.
      * intros _ j Hj. destruct (decide (j <= i + Nat.min step (e - 1 - i))) as [Hle|Hgt].
        -- eexists i, _. split; [by left|]. lia.
        -- destruct (H2 ltac:(lia) j ltac:(lia)) as (s & c & H & Hb). exists s, c. split; [by right|done].
    + split; [intros s c H; by apply elem_of_nil in H|]. lia.
Qed.
Lemma owner n T j : 0 < T -> j < n -> exists t, t < T /\ n * t / T <= j < n * (t + 1) / T.
Proof.
  intros HT Hj. assert (forall k, j < n * k / T -> exists t, t < k /\ n * t / T <= j < n * (t + 1) / T) as H.
  { induction k as [|k IHk]; intros Hk; [rewrite Nat.mul_0_r, Nat.div_0_l in Hk by lia; lia|]. destruct (decide (j < n * k / T)) as [Hl|Hl].
    - destruct (IHk Hl) as (t & Ht & Hr). exists t. split; [lia|done].
    - exists k. split; [lia|]. replace (k + 1) with (S k) by lia. lia. }
  apply H. rewrite Nat.div_mul by lia. done.
Qed.
Lemma range_two n T t : 0 < T -> 2 * T <= n -> n * t / T + 2 <= n * (t + 1) / T.
Proof. intros HT Hn. rewrite <- Nat.div_add by lia. apply Nat.div_le_mono; [lia|]. lia. Qed.
Lemma range_le n T t : 0 < T -> t < T -> n * (t + 1) / T <= n.
Proof. intros HT Ht. rewrite <- (Nat.div_mul n T) at 2 by lia. apply Nat.div_le_mono; [lia|]. nia. Qed.
Lemma steps_cover step n T : 0 < step -> 0 < T -> 2 * T <= n ->
  (forall t, t < T -> exists ss, diffSteps step n T t = Some ss) /\
  forall j, j < n -> exists t ss s c, t < T /\ diffSteps step n T t = Some ss /\ (s, c) ∈ ss /\ s <= j <= s + c /\ s + c < n.
Proof.
  intros Hs HT Hn. assert (forall t, t < T -> diffSteps step n T t = Some (stepsFrom (n * (t + 1) / T - n * t / T) step (n * (t + 1) / T) (n * t / T))) as Hd.
  { intros t Ht. unfold diffSteps. rewrite (Nat.min_l _ n) by by apply range_le. pose proof (range_two n T t HT Hn). replace (_ =? 0) with false by (symmetry; apply Nat.eqb_neq; lia). done. }
  split; [intros t Ht; eexists; by apply Hd|]. intros j Hj. destruct (owner n T j HT Hj) as (t & Ht & Hr). pose proof (range_two n T t HT Hn). pose proof (range_le n T t HT Ht).
  destruct (steps_ok (n * (t + 1) / T - n * t / T) step (n * (t + 1) / T) (n * t / T) Hs ltac:(lia)) as [H1 H2]. destruct (H2 ltac:(lia) j ltac:(lia)) as (s & c & Hin & Hb). apply H1 in Hin as Hin'.
  exists t. eexists _, s, c. split; [done|]. split; [by apply Hd|]. split; [done|]. split; [done|]. lia.
Qed.
(** A range of one element is not sent, and with fewer masks than threads the first one runs away. *)
Lemma steps_one step T t : t < T -> diffSteps step T T t = Some [].
Proof.
  intros Ht. unfold diffSteps. rewrite (Nat.mul_comm T (t + 1)), (Nat.mul_comm T t), !Nat.div_mul by lia. rewrite Nat.min_l by lia. replace (t + 1 =? 0) with false by (symmetry; apply Nat.eqb_neq; lia).
  replace (t + 1 - t) with 1 by lia. cbn [stepsFrom]. replace (t <? t + 1 - 1) with false by (symmetry; apply Nat.ltb_ge; lia). done.
Qed.
Lemma steps_none step n T : n < T -> diffSteps step n T 0 = None.
Proof. intros H. unfold diffSteps. replace (n * (0 + 1) / T) with 0; [done|]. symmetry. apply Nat.div_small. lia. Qed.
Lemma encode_cases h b size ms : encode h b size ms = UB \/ exists m, encode h b size ms = Done m.
Proof. unfold encode. destruct ms; [by left|]. destruct (poke _ _ _); [|by left]. destruct (encLoop _ _ _ _ _ _); [right; by eexists|by left]. Qed.
Lemma big_cases (F : nat * nat -> outcome (list N)) ss : (forall p, F p = UB \/ exists m, F p = Done m) ->
  let r := foldr (fun p acc => match F p, acc with Done m, Done l => Done (m :: l) | Thrown _, _ => Thrown [] | _, Thrown _ => Thrown [] | _, _ => UB end) (Done []) ss in
  ((exists p, p ∈ ss /\ F p = UB) /\ r = UB) \/ exists ms, r = Done ms /\ Forall2 (fun p m => F p = Done m) ss ms.
Proof.
  intros HF. cbn zeta. induction ss as [|p ss IH]; [right; exists []; by split|]. cbn [foldr]. destruct IH as [[(q & Hq & Eq) ->]|(ms & -> & Hms)].
  - left. split; [exists q; split; [by right|done]|]. by destruct (HF p) as [-> |[m ->]].
  - destruct (HF p) as [E|[m E]]; rewrite E; [left; split; [exists p; split; [by left|done]|done]|]. right. exists (m :: ms). split; [done|]. by constructor.
Qed.
Lemma big_ok h b step T t ms : (diffSteps step (length ms) T t = None -> sendBig h b step T t ms = UB) /\
  forall ss, diffSteps step (length ms) T t = Some ss ->
    ((exists s c, (s, c) ∈ ss /\ encode h b (bufSize c h) (take (c + 1) (drop s ms)) = UB) /\ sendBig h b step T t ms = UB) \/
    exists msgs, sendBig h b step T t ms = Done msgs /\ Forall2 (fun p m => encode h b (bufSize p.2 h) (take (p.2 + 1) (drop p.1 ms)) = Done m) ss msgs.
Proof.
  unfold sendBig. split; [by intros ->|]. intros ss ->. destruct (big_cases (fun p => encode h b (bufSize p.2 h) (take (p.2 + 1) (drop p.1 ms))) ss) as [[([s c] & Hin & E) Er]|H]; [intros p; apply encode_cases| |].
  - left. split; [exists s, c; by split|exact Er].
  - right. exact H.
Qed.
Lemma send_fits h b ms : 6 <= h -> h <= b -> b <= 16 -> 100 <= length ms -> escapes h ms = 0 -> exists pad, 0 < pad /\ sendBest h b ms = Done (streamBytes h b ms ++ replicate pad 0%N).
Proof.
  intros Hh Hhb Hb Hn He. pose proof (best_fits (length ms) h b Hn Hh Hb) as Hf. unfold sendBest. rewrite encode_exact by lia. rewrite He, Nat.mul_0_r, Nat.add_0_r.
  replace (_ <=? _) with true by (symmetry; apply Nat.leb_le; lia). eexists. split; [|done].
  assert (length (streamBytes h b ms) = b + h * (length ms - 1)) as El. { destruct ms as [|m ms]; [cbn in Hn; lia|]. rewrite stream_len, He. cbn [length]. lia. } lia.
Qed.
Lemma big_one h b step t ms : t < length ms -> sendBig h b step (length ms) t ms = Done [].
Proof. intros H. unfold sendBig. by rewrite steps_one. Qed.
Lemma big_none h b step T ms : length ms < T -> sendBig h b step T 0 ms = UB.
Proof. intros H. unfold sendBig. by rewrite steps_none. Qed.
