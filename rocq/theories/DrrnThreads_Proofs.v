From Verif Require Import Base Drrn_Model Sched_Model Sched_Spec Threads_Model DrrnThreads_Model Sched_Proofs Sched_Proofs2 Threads_Proofs Threads_Proofs2.

(** ** Regions of a thread *)

Lemma stride_elem T n : (0 < T)%nat -> forall fuel b x, (n <= fuel + b)%nat -> x ∈ zStride T n fuel b <-> exists y, x = (b + y * T)%nat /\ (x < n)%nat.
Proof.
  intros HT. induction fuel as [|f IH]; intros b x Hf; cbn [zStride].
  - split; [by intros ?%elem_of_nil|]. intros (y & -> & H). exfalso. nia.
  - destruct (Nat.ltb_spec b n) as [Hlt|Hge].
    + rewrite elem_of_cons, IH by lia. split.
      * intros [->|(y & -> & H)]; [exists 0%nat; lia|exists (S y); lia].
      * intros ([|y] & -> & H); [left; lia|right; exists y; lia].
    + split; [by intros ?%elem_of_nil|]. intros (y & -> & H). exfalso. nia.
Qed.
Lemma mine_elem T t n x : (t < T)%nat -> x ∈ zMine T t n <-> (x < n)%nat /\ (x mod T = t)%nat.
Proof.
  intros Ht. unfold zMine. rewrite stride_elem by lia. split.
  - intros (y & -> & H). split; [done|]. rewrite Nat.mod_add by lia. by apply Nat.mod_small.
  - intros [H E]. exists (x / T)%nat. split; [|done]. pose proof (Nat.div_mod x T ltac:(lia)). lia.
Qed.
Lemma stride_nodup T n : (0 < T)%nat -> forall fuel b, NoDup (zStride T n fuel b) /\ Forall (fun x => (b <= x)%nat) (zStride T n fuel b).
Proof.
  intros HT. induction fuel as [|f IH]; intros b; cbn [zStride]; [split; constructor|]. destruct (b <? n)%nat; [|split; constructor].
  destruct (IH (b + T)%nat) as [Hn Hf]. split.
  - constructor; [|done]. intros Hin. rewrite Forall_forall in Hf. specialize (Hf b Hin). lia.
  - constructor; [lia|]. eapply Forall_impl; [exact Hf|]. cbn. lia.
Qed.

(** ** Ranks *)

Section net.
Variables (P : drrnNet) (p : dparams).
Let h := heard true (zInit P).
Local Notation R := (dS p).
Definition z0b (t : nat) : list (nat * list (rank * ev)) :=
  match t with
  | O => [(0%nat, talkR true 0 0 0 0 (zInit P)); seg 1 [Get (Chan 2 true) 0 (zBlocks p)]; seg 2 [Snd (Barrier true zStartB) 0]; seg 4 (zRoutine p 0 h (zT0 P) 0);
          seg 6 [Wai (Barrier true joinB) (zT0 P - 1); Get (Chan 0 false) (h + R) (zIndices p); Get (Chan 0 false) (h + R + 1) (zBlocks p)];
          seg 8 [Get (Chan 2 true) 1 (zBlocks p); Act MasksSent]; (9%nat, talkR true 0 (h + R + 2) 9 0 (zOnline P))]
  | S _ => [seg 3 [Wai (Barrier true zStartB) 1]; seg 4 (zRoutine p 0 h (zT0 P) t); seg 5 [done true]]
  end.
Definition z1b (t : nat) : list (nat * list (rank * ev)) :=
  match t with
  | O => [seg 0 [Snd (Chan 2 true) (zBlocks p)]; seg 2 [Snd (Barrier false zStartB) 0]; seg 4 (zRoutine p 1 0 (zT1 P) 0);
          seg 6 [Wai (Barrier false joinB) (zT1 P - 1)]; seg 7 [Act MasksSent; Snd (Chan 2 true) (zBlocks p)]]
  | S _ => [seg 3 [Wai (Barrier false zStartB) 1]; seg 4 (zRoutine p 1 0 (zT1 P) t); seg 5 [done false]]
  end.
Definition keySends : list ev := concat (replicate R [Snd (Chan 0 false) (zKeys p); Snd (Chan 1 false) (zKeys p)]).
Definition zcb : list (nat * list (rank * ev)) :=
  [(0%nat, talkR false 0 0 0 0 (zInit P)); seg 2 (keySends ++ [Snd (Chan 0 false) (zIndices p); Snd (Chan 0 false) (zBlocks p)]);
   (9%nat, talkR false 0 (heard false (zInit P)) 9 0 (zOnline P))].
Definition zall : list (list (rank * ev)) := map (fun t => flat (z0b t)) (seq 0 (zT0 P)) ++ map (fun t => flat (z1b t)) (seq 0 (zT1 P)) ++ [flat zcb].

Lemma z_scripts : map evs zall = drrnScripts P p p p.
Proof.
  unfold zall, drrnScripts. rewrite !map_app, !map_map. cbn [map]. f_equal; [|f_equal].
  - apply map_ext. intros [|t]; rewrite flat_evs; unfold z0b; cbn [map concat snd app]; rewrite !seg_evs, ?talkR_evs; unfold zServer0; cbn [app]; rewrite ?app_nil_r, <- ?app_assoc; done.
  - apply map_ext. intros [|t]; rewrite flat_evs; unfold z1b; cbn [map concat snd app]; rewrite !seg_evs; unfold zServer1; cbn [app]; rewrite ?app_nil_r, <- ?app_assoc; done.
  - f_equal. rewrite flat_evs. unfold zcb, zClient, keySends. cbn [map concat snd app]. rewrite !seg_evs, !talkR_evs, ?app_nil_r, <- ?app_assoc. done.
Qed.

Lemma routine_sends q pp c hh T t : sendsOf q (zRoutine pp c hh T t) = [].
Proof. unfold zRoutine. rewrite sendsOf_app. induction (zMine _ _ _) as [|b l IH]; [done|]. cbn [map]. by rewrite sendsOf_get. Qed.
Lemma routine_elem e pp c hh T t : e ∈ zRoutine pp c hh T t -> e = Act Hashed \/ exists b, b ∈ zMine T t (dS pp) /\ e = Get (Chan c false) (hh + b) (zKeys pp).
Proof. unfold zRoutine. intros [H|H]%elem_of_app; [right|left; by apply elem_of_list_singleton in H]. apply elem_of_list_fmap in H as (b & -> & Hb). eauto. Qed.
Lemma key_sends q : sendsOf q keySends = if decide (q = Chan 0 false \/ q = Chan 1 false) then replicate R (zKeys p) else [].
Proof.
  unfold keySends. induction R as [|n IH]; [by destruct (decide _)|]. cbn [replicate concat]. rewrite sendsOf_app, IH. cbn.
  destruct (decide (q = Chan 0 false \/ q = Chan 1 false)) as [[HH | HH]|Hn]; [subst q|subst q|]; [done|done|]. rewrite !decide_False by (intros <-; tauto). done.
Qed.
Lemma keys_elem e : e ∈ keySends -> exists q k, e = Snd q k.
Proof.
  unfold keySends. induction R as [|n IH]; cbn [replicate concat app]; [by intros ?%elem_of_nil|]. intros H.
  apply elem_of_cons in H as [H|H]; [eauto|]. apply elem_of_cons in H as [H|H]; [eauto|]. by apply IH.
Qed.

Definition m0 : list (rank * N) := said true 0 0 (zInit P) ++ said true 9 0 (zOnline P).
Definition m2 : list (rank * N) := [((0, 0)%nat, zBlocks p); ((7, 0)%nat, zBlocks p)].
Definition mc0 : list (rank * N) := said false 0 0 (zInit P) ++ map (pair (2, 0)%nat) (replicate R (zKeys p) ++ [zIndices p; zBlocks p]) ++ said false 9 0 (zOnline P).
Definition mc1 : list (rank * N) := map (pair (2, 0)%nat) (replicate R (zKeys p)).
Lemma z0_sends c d t : rsends (Chan c d) (flat (z0b t)) = if (d && (c =? 0)%nat && (t =? 0)%nat)%bool then m0 else [].
Proof.
  destruct t as [|t]; unfold z0b, done; simp_sends; rewrite !routine_sends; cbn [Nat.eqb]; rewrite ?andb_true_r, ?andb_false_r.
  - destruct (Nat.eqb_spec c 0) as [->|Hc]; destruct d; dec; cbn [andb map app]; rewrite ?app_nil_r; done.
  - dec. done.
Qed.
Lemma z1_sends c d t : rsends (Chan c d) (flat (z1b t)) = if (d && (c =? 2)%nat && (t =? 0)%nat)%bool then m2 else [].
Proof.
  destruct t as [|t]; unfold z1b, done; simp_sends; rewrite !routine_sends; cbn [Nat.eqb]; rewrite ?andb_true_r, ?andb_false_r.
  - destruct (Nat.eqb_spec c 2) as [->|Hc]; destruct d; dec; cbn [andb map app]; rewrite ?app_nil_r; done.
  - dec. done.
Qed.
Lemma zc_sends c d : rsends (Chan c d) (flat zcb) = if d then [] else if (c =? 0)%nat then mc0 else if (c =? 1)%nat then mc1 else [].
Proof.
  unfold zcb. simp_sends. rewrite key_sends. destruct d.
  - dec. rewrite (decide_False (P := _ \/ _)) by (intros [?|?]; congruence). done.
  - destruct (Nat.eqb_spec c 0) as [->|H0].
    + rewrite (decide_True (P := _ \/ _)) by tauto. dec. unfold mc0. rewrite ?app_nil_r. by rewrite <- ?app_assoc.
    + destruct (Nat.eqb_spec c 1) as [->|H1].
      * rewrite (decide_True (P := _ \/ _)) by tauto. dec. unfold mc1. cbn [app]. by rewrite ?app_nil_r.
      * rewrite (decide_False (P := _ \/ _)) by (intros [?|?]; congruence). dec. done.
Qed.

Lemma zall_lookup i l : zall !! i = Some l ->
  (i < zT0 P)%nat /\ l = flat (z0b i) \/ (exists t, (t < zT1 P)%nat /\ i = (zT0 P + t)%nat /\ l = flat (z1b t)) \/ i = (zT0 P + zT1 P)%nat /\ l = flat zcb.
Proof.
  unfold zall. intros [H|[Hge H]]%lookup_app_Some.
  - left. rewrite list_lookup_fmap in H. destruct (seq 0 (zT0 P) !! i) as [x|] eqn:E; [|done]. apply lookup_seq in E as [-> E]. split; [done|]. by injection H as <-.
  - rewrite map_length, seq_length in Hge, H. apply lookup_app_Some in H as [H|[Hge' H]].
    + right; left. rewrite list_lookup_fmap in H. destruct (seq 0 (zT1 P) !! (i - zT0 P)%nat) as [x|] eqn:E; [|done]. apply lookup_seq in E as [-> E].
      exists (i - zT0 P)%nat. split; [done|]. split; [lia|]. by injection H as <-.
    + right; right. rewrite map_length, seq_length in Hge', H. apply list_lookup_singleton_Some in H as [Hi <-]. split; [lia|done].
Qed.
Lemma zall_0 t : (t < zT0 P)%nat -> zall !! t = Some (flat (z0b t)).
Proof. intros H. unfold zall. rewrite lookup_app_l by (rewrite map_length, seq_length; lia). rewrite list_lookup_fmap, lookup_seq_lt by done. done. Qed.
Lemma zall_1 t : (t < zT1 P)%nat -> zall !! (zT0 P + t)%nat = Some (flat (z1b t)).
Proof.
  intros H. unfold zall. rewrite lookup_app_r by (rewrite map_length, seq_length; lia). rewrite map_length, seq_length.
  replace (zT0 P + t - zT0 P)%nat with t by lia. rewrite lookup_app_l by (rewrite map_length, seq_length; lia). rewrite list_lookup_fmap, lookup_seq_lt by done. done.
Qed.
Lemma zall_c : zall !! (zT0 P + zT1 P)%nat = Some (flat zcb).
Proof.
  unfold zall. rewrite lookup_app_r by (rewrite map_length, seq_length; lia). rewrite map_length, seq_length, lookup_app_r by (rewrite map_length, seq_length; lia).
  rewrite map_length, seq_length. replace (zT0 P + zT1 P - zT0 P - zT1 P)%nat with 0%nat by lia. done.
Qed.

(** Who sends on a channel. *)
Definition metz (r : rank) (q : queue) (j : nat) (k : N) : Prop :=
  exists u lu r', zall !! u = Some lu /\ (forall v lv, zall !! v = Some lv -> v <> u -> rsends q lv = []) /\ rsends q lu !! j = Some (r', k) /\ rlt r' r.
Lemma met_0 r j k r' : (1 <= zT0 P)%nat -> m0 !! j = Some (r', k) -> rlt r' r -> metz r (Chan 0 true) j k.
Proof.
  intros HT Hj Hr. exists 0%nat, (flat (z0b 0)), r'. split; [by apply zall_0|]. split; [|by rewrite z0_sends].
  intros v lv Hv Hne. apply zall_lookup in Hv as [[Hv ->]|[(t & Ht & -> & ->)|[-> ->]]].
  - rewrite z0_sends. destruct v; done.
  - by rewrite z1_sends.
  - by rewrite zc_sends.
Qed.
Lemma met_2 r j k r' : (1 <= zT1 P)%nat -> m2 !! j = Some (r', k) -> rlt r' r -> metz r (Chan 2 true) j k.
Proof.
  intros HT Hj Hr. exists (zT0 P + 0)%nat, (flat (z1b 0)), r'. split; [by apply zall_1|]. split; [|by rewrite z1_sends].
  intros v lv Hv Hne. apply zall_lookup in Hv as [[Hv ->]|[(t & Ht & -> & ->)|[-> ->]]].
  - by rewrite z0_sends.
  - rewrite z1_sends. destruct t; done.
  - by rewrite zc_sends.
Qed.
Lemma met_c0 r j k r' : mc0 !! j = Some (r', k) -> rlt r' r -> metz r (Chan 0 false) j k.
Proof.
  intros Hj Hr. exists (zT0 P + zT1 P)%nat, (flat zcb), r'. split; [by apply zall_c|]. split; [|by rewrite zc_sends].
  intros v lv Hv Hne. apply zall_lookup in Hv as [[Hv ->]|[(t & Ht & -> & ->)|[-> ->]]]; [by rewrite z0_sends|by rewrite z1_sends|done].
Qed.
Lemma met_c1 r j k r' : mc1 !! j = Some (r', k) -> rlt r' r -> metz r (Chan 1 false) j k.
Proof.
  intros Hj Hr. exists (zT0 P + zT1 P)%nat, (flat zcb), r'. split; [by apply zall_c|]. split; [|by rewrite zc_sends].
  intros v lv Hv Hne. apply zall_lookup in Hv as [[Hv ->]|[(t & Ht & -> & ->)|[-> ->]]]; [by rewrite z0_sends|by rewrite z1_sends|done].
Qed.
Lemma h_said pp : length (said false pp 0 (zInit P)) = h.
Proof. by rewrite said_heard. Qed.
Lemma key_at b : (b < R)%nat -> mc0 !! (h + b)%nat = Some ((2, 0)%nat, zKeys p).
Proof.
  intros H. unfold mc0. eapply nth_tail; [by rewrite h_said|]. apply nth_head. rewrite map_app. apply nth_head, nth_pair. by apply lookup_replicate_2.
Qed.
Lemma key_at1 b : (b < R)%nat -> mc1 !! b = Some ((2, 0)%nat, zKeys p).
Proof. intros H. apply nth_pair. by apply lookup_replicate_2. Qed.
Lemma perm_at0 : mc0 !! (h + R)%nat = Some ((2, 0)%nat, zIndices p).
Proof.
  unfold mc0. eapply nth_tail; [by rewrite h_said|]. apply nth_head, nth_pair. eapply (nth_tail _ _ _ 0); [by rewrite replicate_length, Nat.add_0_r|done].
Qed.
Lemma perm_at1 : mc0 !! (h + R + 1)%nat = Some ((2, 0)%nat, zBlocks p).
Proof.
  unfold mc0. eapply (nth_tail _ _ _ (R + 1)); [rewrite h_said; lia|]. apply nth_head, nth_pair. eapply (nth_tail _ _ _ 1); [by rewrite replicate_length|done].
Qed.
Lemma mine_lt T t b n : (t < T)%nat -> b ∈ zMine T t n -> (b < n)%nat.
Proof. intros Ht H. apply mine_elem in H as [? _]; done. Qed.

Lemma z0_get t r q j k : (t < zT0 P)%nat -> (1 <= zT1 P)%nat -> (r, Get q j k) ∈ flat (z0b t) -> metz r q j k.
Proof.
  intros Ht H1 H. destruct t as [|t]; unfold z0b, done in H; parts H.
  - apply talkR_get in H as (-> & x & r' & H & -> & L). eapply met_c0; [|exact L]. by apply nth_head.
  - injection H as -> -> ->. eapply met_2; [done|reflexivity|rl].
  - apply routine_elem in H as [?|(b & Hb & [= -> -> ->])]; [done|]. eapply met_c0; [apply key_at; exact (mine_lt _ _ _ _ Ht Hb)|rl].
  - injection H as -> -> ->. eapply met_c0; [apply perm_at0|rl].
  - injection H as -> -> ->. eapply met_c0; [apply perm_at1|rl].
  - injection H as -> -> ->. eapply met_2; [done|reflexivity|rl].
  - apply talkR_get in H as (-> & x & r' & H & -> & L). eapply met_c0; [|exact L]. unfold mc0.
    eapply (nth_tail _ _ _ (R + 2 + x)); [rewrite h_said; lia|]. eapply (nth_tail _ _ _ x); [|exact H]. rewrite map_length, app_length, replicate_length. cbn. lia.
  - apply routine_elem in H as [?|(b & Hb & [= -> -> ->])]; [done|]. eapply met_c0; [apply key_at; exact (mine_lt _ _ _ _ Ht Hb)|rl].
Qed.
Lemma z1_get t r q j k : (t < zT1 P)%nat -> (r, Get q j k) ∈ flat (z1b t) -> metz r q j k.
Proof.
  intros Ht H. destruct t as [|t]; unfold z1b, done in H; parts H; apply routine_elem in H as [?|(b & Hb & [= -> -> ->])]; try done;
    (eapply met_c1; [apply key_at1; exact (mine_lt _ _ _ _ Ht Hb)|rl]).
Qed.
Lemma zc_get r q j k : (1 <= zT0 P)%nat -> (r, Get q j k) ∈ flat zcb -> metz r q j k.
Proof.
  intros H0 H. unfold zcb in H. parts H.
  - apply talkR_get in H as (-> & x & r' & H & -> & L). eapply met_0; [done| |exact L]. by apply nth_head.
  - by apply keys_elem in H as (? & ? & ?).
  - apply talkR_get in H as (-> & x & r' & H & -> & L). eapply met_0; [done| |exact L]. unfold m0. eapply nth_tail; [|exact H]. by rewrite said_heard.
Qed.

Lemma arrived_some r q (f0 : nat -> list (rank * ev)) T m : (1 <= T)%nat ->
  (m <= length (before r (rsends q (f0 0%nat))) + length (before r (concat (map (rsends q) (map f0 (seq 1 (T - 1)))))))%nat ->
  (m <= length (before r (concat (map (rsends q) (map f0 (seq 0 T))))))%nat.
Proof.
  intros HT. assert (seq 0 T = 0%nat :: seq 1 (T - 1)) as -> by (destruct T; [lia|cbn; by rewrite Nat.sub_0_r]). cbn [map concat]. by rewrite before_app, app_length.
Qed.
Lemma z0_wait t r q m : (t < zT0 P)%nat -> (r, Wai q m) ∈ flat (z0b t) -> (m <= length (before r (concat (map (rsends q) zall))))%nat.
Proof.
  intros Ht H. unfold zall. rewrite map_app, concat_app, before_app, app_length. etransitivity; [|apply Nat.le_add_r]. apply arrived_some; [lia|].
  destruct t as [|t]; unfold z0b, done in H; parts H; try nowait H; try (by apply routine_elem in H as [?|(? & _ & ?)]); injection H as -> ->.
  - etransitivity; [|apply Nat.le_add_l]. apply (many _ _ (fun t => flat (z0b t))). intros [|i] Hi; [lia|]. eapply arrives; [eapply (flat_in (z0b (S i)) 2 _ _ 0); reflexivity|rl].
  - etransitivity; [|apply Nat.le_add_r]. eapply arrives; [eapply (flat_in (z0b 0) 2 _ _ 0); reflexivity|rl].
Qed.
Lemma z1_wait t r q m : (t < zT1 P)%nat -> (r, Wai q m) ∈ flat (z1b t) -> (m <= length (before r (concat (map (rsends q) zall))))%nat.
Proof.
  intros Ht H. unfold zall. rewrite !map_app, !concat_app, !before_app, !app_length. etransitivity; [|apply Nat.le_add_l]. etransitivity; [|apply Nat.le_add_r]. apply arrived_some; [lia|].
  destruct t as [|t]; unfold z1b, done in H; parts H; try nowait H; try (by apply routine_elem in H as [?|(? & _ & ?)]); injection H as -> ->.
  - etransitivity; [|apply Nat.le_add_l]. apply (many _ _ (fun t => flat (z1b t))). intros [|i] Hi; [lia|]. eapply arrives; [eapply (flat_in (z1b (S i)) 2 _ _ 0); reflexivity|rl].
  - etransitivity; [|apply Nat.le_add_r]. eapply arrives; [eapply (flat_in (z1b 0) 1 _ _ 0); reflexivity|rl].
Qed.
Lemma zc_wait r q m : (r, Wai q m) ∈ flat zcb -> False.
Proof.
  intros H. unfold zcb in H. parts H; try nowait H.
  by apply keys_elem in H as (? & ? & ?).
Qed.

Lemma drrn_completes : (1 <= zT0 P)%nat -> (1 <= zT1 P)%nat -> completes (drrnScripts P p p p).
Proof.
  intros H0 H1. rewrite <- z_scripts. apply ranked_completes. constructor.
  - intros i l Hl. apply zall_lookup in Hl as [[Hv ->]|[(t & Ht & -> & ->)|[-> ->]]].
    + destruct i; unfold z0b; sorted_tac.
    + destruct t; unfold z1b; sorted_tac.
    + unfold zcb; sorted_tac.
  - intros i l r q j k Hl H. apply zall_lookup in Hl as [[Hv ->]|[(t & Ht & -> & ->)|[-> ->]]]; [by eapply z0_get|by eapply z1_get|by apply zc_get].
  - intros i l r q n Hl H. apply zall_lookup in Hl as [[Hv ->]|[(t & Ht & -> & ->)|[-> ->]]]; [by eapply z0_wait|by eapply z1_wait|by apply zc_wait in H].
Qed.
End net.
