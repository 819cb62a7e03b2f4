(** Proofs about the polynomial tree: the contents of the nodes. *)
From Verif Require Import Base PolyTree_Model PolyTree_Spec PolyTree_Proofs.
From Coq Require Import Field.
Local Open Scope nat_scope.

(** * Products over the leaves *)
Section vals.
Context (K : fops) (HK : isField K) (pts : list (fT K)).
Notation F := (fT K).
Notation poly := (list F).
Notation n := (length pts).
Notation ev := (evalAt K).
Add Field KF : (Kfield K HK).
Definition pt (i : nat) : F := nth i pts (f0 K).
Fixpoint prodB (t : bt) (z : F) : F := match t with Lf i => fsub K z (pt i) | Nd l r => fmul K (prodB l z) (prodB r z) end.
Fixpoint dB (t : bt) (z : F) : F := match t with Lf i => f1 K | Nd l r => fadd K (fmul K (dB l z) (prodB r z)) (fmul K (prodB l z) (dB r z)) end.
Fixpoint linB (c : nat -> F) (t : bt) (z : F) : F := match t with Lf i => c i | Nd l r => fadd K (fmul K (linB c l z) (prodB r z)) (fmul K (linB c r z) (prodB l z)) end.

Lemma mul_zero a b : fmul K a b = f0 K -> a = f0 K \/ b = f0 K.
Proof using HK.
  intros H. destruct (feqb K a (f0 K)) eqn:E; [left; by apply (feq K HK)|]. right.
  assert (a <> f0 K) as Ha by (intros ->; assert (feqb K (f0 K) (f0 K) = true) by (by apply (feq K HK)); congruence).
  assert (fmul K (finv K a) (fmul K a b) = b) as Hb by (field; done). rewrite H in Hb. rewrite <- Hb. ring.
Qed.
Lemma sub_zero a b : fsub K a b = f0 K -> a = b.
Proof using HK. intros H. assert (a = fadd K (fsub K a b) b) as E by ring. rewrite E, H. ring. Qed.
Lemma prodB_root t i : i ∈ leaves t -> prodB t (pt i) = f0 K.
Proof using HK.
  induction t as [j|l IHl r IHr]; cbn; intros H; [apply elem_of_list_singleton in H; subst; ring|]. apply elem_of_app in H as [H|H]; [rewrite (IHl H)|rewrite (IHr H)]; ring.
Qed.
Lemma prodB_nonroot t z : (forall i, i ∈ leaves t -> z <> pt i) -> prodB t z <> f0 K.
Proof using HK.
  induction t as [j|l IHl r IHr]; cbn; intros H E.
  - apply sub_zero in E. apply (H j); [by apply elem_of_list_singleton|done].
  - apply mul_zero in E as [E|E]; [apply IHl in E|apply IHr in E]; try done; intros i Hi; apply H, elem_of_app; auto.
Qed.
Lemma linB_root c t i : i ∈ leaves t -> linB c t (pt i) = fmul K (c i) (dB t (pt i)).
Proof using HK.
  induction t as [j|l IHl r IHr]; cbn; intros H; [apply elem_of_list_singleton in H; subst; ring|]. apply elem_of_app in H as [H|H].
  - rewrite (IHl H), (prodB_root _ _ H). ring.
  - rewrite (IHr H), (prodB_root _ _ H). ring.
Qed.
Lemma dB_nonzero t i : i ∈ leaves t -> NoDup (leaves t) -> (forall j, j ∈ leaves t -> i <> j -> pt i <> pt j) -> dB t (pt i) <> f0 K.
Proof using HK.
  induction t as [j|l IHl r IHr]; cbn; intros H Hnd Hd; [apply (one_zero K HK)|]. apply NoDup_app in Hnd as (N1 & N2 & N3). apply elem_of_app in H as [H|H]; rewrite (prodB_root _ _ H); intros E.
  - assert (fmul K (dB l (pt i)) (prodB r (pt i)) = f0 K) as E' by (rewrite <- E; ring). apply mul_zero in E' as [E'|E'].
    + apply IHl in E'; try done. intros j Hj. apply Hd, elem_of_app. by left.
    + apply prodB_nonroot in E'; [done|]. intros j Hj. apply Hd; [apply elem_of_app; by right|]. intros ->. by apply (N2 j).
  - assert (fmul K (prodB l (pt i)) (dB r (pt i)) = f0 K) as E' by (rewrite <- E; ring). apply mul_zero in E' as [E'|E'].
    + apply prodB_nonroot in E'; [done|]. intros j Hj. apply Hd; [apply elem_of_app; by left|]. intros ->. by apply (N2 j).
    + apply IHr in E'; try done. intros j Hj. apply Hd, elem_of_app. by right.
Qed.

(** * The product tree *)
Definition goodM (v : nat) (p : poly) : Prop := exists t, heap n v t /\ monic K p (length (leaves t)) /\ forall z, ev p z = prodB t z /\ dv K p z = dB t z.
Lemma heap_inv v t : heap n v t -> v < n - 1 -> exists l r, t = Nd l r /\ heap n (LEFT v) l /\ heap n (RIGHT v) r.
Proof. intros H Hv. inversion H; subst; [lia|]. eauto. Qed.
Lemma good_leaf i x : pts !! i = Some x -> goodM (n - 1 + i) [fopp K x; f1 K].
Proof using HK.
  intros Hx. pose proof (lookup_lt_Some _ _ _ Hx) as Hi. exists (Lf i). split; [replace i with (n - 1 + i - (n - 1)) at 2 by lia; constructor; lia|]. split; [exists [fopp K x]; done|].
  assert (pt i = x) as Ep by (unfold pt; by apply nth_lookup_Some). intros z. cbn. rewrite Ep. split; ring.
Qed.
Lemma mulNode_ok arr v : length arr = 2 * n - 1 -> v < n - 1 -> (forall c, c ∈ [LEFT v; RIGHT v] -> c < 2 * n - 1 -> holds goodM arr c) ->
  exists p, mulNode K arr v = Done (<[v := p]> arr) /\ goodM v p.
Proof using HK.
  intros Hl Hv Hc. destruct (Hc (LEFT v)) as (a & Ea & ta & Ha1 & Ha2 & Ha3); [by left|unfold LEFT; lia|]. destruct (Hc (RIGHT v)) as (b & Eb & tb & Hb1 & Hb2 & Hb3); [by right; left|unfold RIGHT; lia|].
  unfold mulNode. rewrite Ea, Eb. destruct (lookup_lt_is_Some_2 arr v) as [o Eo]; [lia|]. rewrite Eo. eexists. split; [done|].
  exists (Nd ta tb). split; [by constructor|]. split; [cbn; rewrite app_length; by apply mulP_monic|].
  intros z. cbn. destruct (Ha3 z) as [A1 A2], (Hb3 z) as [B1 B2]. rewrite (ev_mulP K HK), (dv_mulP K HK), A1, A2, B1, B2. split; ring.
Qed.
End vals.

(** * Upwards *)
Lemma pow2_pos i : 0 < 2 ^ i.
Proof. apply Nat.neq_0_lt_0, Nat.pow_nonzero. lia. Qed.
Lemma concat_in {A} (ths : list (list A)) v : v ∈ concat ths <-> exists i s, ths !! i = Some s /\ v ∈ s.
Proof.
  induction ths as [|th ths IH]; cbn.
  - split; [intros H; by apply elem_of_nil in H|]. intros (i & s & H & _). by rewrite lookup_nil in H.
  - rewrite elem_of_app, IH. split.
    + intros [H|(i & s & Hs & Hv)]; [by exists 0, th|by exists (S i), s].
    + intros ([|i] & s & Hs & Hv); cbn in Hs; [injection Hs as <-; by left|right; eauto].
Qed.
Section up.
Context {K : fops} (step : list (list (fT K)) -> nat -> outcome (list (list (fT K)))) (good : nat -> list (fT K) -> Prop) (n : nat).
Context (Hstep : forall arr v, length arr = 2 * n - 1 -> v < n - 1 -> (forall c, c ∈ [LEFT v; RIGHT v] -> c < 2 * n - 1 -> holds good arr c) -> exists p, step arr v = Done (<[v := p]> arr) /\ good v p).

Lemma up_ops ops (D : nat -> Prop) arr : length arr = 2 * n - 1 -> ready (fun v => [LEFT v; RIGHT v]) D ops -> Forall (fun v => v < n - 1) ops ->
  (forall c, D c -> c < 2 * n - 1 -> holds good arr c) ->
  exists arr', runOps K step ops arr = Done arr' /\ length arr' = 2 * n - 1 /\ forall c, D c \/ c ∈ ops -> c < 2 * n - 1 -> holds good arr' c.
Proof using Hstep.
  intros Hl Hr Hv HD.
  destruct (runOps_ok step (2 * n - 1) (fun v => [LEFT v; RIGHT v]) (fun v => v < n - 1) good good ltac:(cbn; lia) ltac:(done) Hstep ops D D arr) as (arr' & E1 & E2 & _ & E3); [done..|].
  exists arr'. done.
Qed.
Lemma up_levels sch m : forall arr, length arr = 2 * n - 1 -> 2 ^ S m - 2 < n - 1 \/ m = 0 -> (forall c, 2 ^ S m - 1 <= c -> c < 2 * n - 1 -> holds good arr c) ->
  exists arr', runLevels K step sch (rev (seq 1 m)) arr = Done arr' /\ length arr' = 2 * n - 1 /\ forall c, 1 <= c -> c < 2 * n - 1 -> holds good arr' c.
Proof using Hstep.
  induction m as [|m IH]; intros arr Hl Hn HD.
  - exists arr. split; [done|]. split; [done|]. intros c Hc. apply HD. cbn. lia.
  - replace (rev (seq 1 (S m))) with (S m :: rev (seq 1 m)) by (rewrite seq_S, rev_app_distr; cbn; do 2 f_equal; lia). cbn [runLevels]. pose proof (pow2_pos m). 
    destruct (up_ops (interleave (sch (S m)) (map (fun j => [j]) (levelNodes (S m)))) (fun c => 2 ^ S (S m) - 1 <= c) arr) as (arr1 & -> & E2 & E3); [done| | |done|].
    + apply level_ready. intros v c Hv Hc. cbn in Hv |- *. rewrite !elem_of_cons, elem_of_nil in Hc. unfold LEFT, RIGHT in Hc. destruct Hc as [-> |[-> |[]]]; lia.
    + apply Forall_forall. intros v Hv%level_in. destruct Hn as [Hn|Hn]; [|lia]. lia.
    + apply IH; [done| |].
      * destruct (decide (m = 0)) as [-> |Hm]; [by right|]. left. destruct Hn as [Hn|Hn]; [|lia]. cbn in Hn |- *. lia.
      * intros c Hc Hs. apply E3; [|done]. destruct (decide (2 ^ S (S m) - 1 <= c)) as [H'|H']; [by left|]. right. apply level_in. lia.
Qed.
(** The threads. *)
Lemma up_subs sc T arr : length arr = 2 * n - 1 -> 0 < T -> 2 * T <= n -> (forall c, n - 1 <= c -> c < 2 * n - 1 -> holds good arr c) ->
  exists subs arr1, genSubs T (n - 1) (T - 1) = Some subs /\ runOps K step (interleave sc (map (@rev nat) subs)) arr = Done arr1 /\ length arr1 = 2 * n - 1 /\ forall c, T - 1 <= c -> c < 2 * n - 1 -> holds good arr1 c.
Proof using Hstep.
  intros Hl HT Hn HD. destruct (genSubs_ok T (n - 1) (T - 1)) as (subs & -> & Hs1 & Hs2); [lia|]. exists subs.
  assert (forall (s : list nat) v, v ∈ rev s <-> v ∈ s) as Hrev by (intros s v; rewrite !elem_of_list_In; symmetry; apply in_rev).
  assert (forall v, v ∈ interleave sc (map (@rev nat) subs) <-> exists i s, subs !! i = Some s /\ v ∈ s) as Hin.
  { intros v. rewrite interleave_perm, concat_in. split.
    - intros (i & s & Hs & Hv). rewrite list_lookup_fmap in Hs. destruct (subs !! i) as [s'|] eqn:E; [|done]. injection Hs as <-. exists i, s'. split; [done|]. by apply Hrev.
    - intros (i & s & Hs & Hv). exists i, (rev s). rewrite list_lookup_fmap, Hs. split; [done|]. by apply Hrev. }
  destruct (up_ops (interleave sc (map (@rev nat) subs)) (fun c => n - 1 <= c) arr) as (arr1 & E1 & E2 & E3); [done| | |done|].
  - apply interleave_ready, Forall_forall. intros l Hl'. apply elem_of_list_fmap in Hl' as (s & -> & Hs). apply elem_of_list_lookup in Hs as [i Hs]. destruct (Hs2 _ _ Hs) as [Hi Hok].
    eapply sub_backward; [exact Hok|lia|done].
  - apply Forall_forall. intros v Hv. apply Hin in Hv as (i & s & Hs & Hv). destruct (Hs2 _ _ Hs) as [Hi [Hok _]]. apply Hok in Hv. lia.
  - exists arr1. split; [done|]. split; [done|]. split; [done|]. intros c Hc Hs. apply E3; [|done].
    destruct (decide (n - 1 <= c)) as [H|H]; [by left|]. right. apply Hin. destruct (below_cover T c) as (i & Hi & Hb); [done|done|].
    destruct (lookup_lt_is_Some_2 subs i) as [s Es]; [lia|]. exists i, s. split; [done|]. destruct (Hs2 _ _ Es) as [_ [Hok _]]. apply Hok. right. split; [done|lia].
Qed.
(** The threads and then the levels. *)
Lemma up_all sc sch L arr : length arr = 2 * n - 1 -> 2 * 2 ^ L <= n -> (forall c, n - 1 <= c -> c < 2 * n - 1 -> holds good arr c) ->
  exists subs arr1 arr2, genSubs (2 ^ L) (n - 1) (2 ^ L - 1) = Some subs /\ runOps K step (interleave sc (map (@rev nat) subs)) arr = Done arr1 /\
    runLevels K step sch (upLevels (2 ^ L)) arr1 = Done arr2 /\ length arr2 = 2 * n - 1 /\ forall c, 1 <= c -> c < 2 * n - 1 -> holds good arr2 c.
Proof using Hstep.
  intros Hl Hn HD. pose proof (pow2_pos L) as HT. set (T := 2 ^ L) in *. destruct (up_subs sc T arr) as (subs & arr1 & E0 & E1 & E2 & E3); [done..|]. exists subs, arr1.
  destruct (up_levels sch (Nat.log2 T - 1) arr1) as (arr2 & E4 & E5 & E6); [done| | |exists arr2; done]; unfold T; rewrite Nat.log2_pow2 by lia; fold T.
  - destruct L as [|L']; [by right|]. left. replace (S (S L' - 1)) with (S L') by lia. fold T. lia.
  - intros c Hc Hs. apply E3; [|done]. destruct L as [|L']; [unfold T; cbn; lia|]. replace (S (S L' - 1)) with (S L') in Hc by lia. by fold T in Hc.
Qed.
End up.

Section build.
Context (K : fops) (HK : isField K) (pts : list (fT K)).
Add Field KF2 : (Kfield K HK).
Notation n := (length pts).
Notation ev := (evalAt K).
(** A tree of products: every node is correct. *)
Definition treeOk (tree : list (list (fT K))) : Prop := length tree = 2 * n - 1 /\ forall c, c < 2 * n - 1 -> holds (goodM K pts) tree c.
Lemma leaves_start c : n - 1 <= c -> c < 2 * n - 1 -> holds (goodM K pts) (replicate (n - 1) [] ++ map (fun x => [fopp K x; f1 K]) pts) c.
Proof using HK.
  intros Hc Hs. destruct (lookup_lt_is_Some_2 pts (c - (n - 1))) as [x Ex]; [lia|]. exists [fopp K x; f1 K]. split.
  - rewrite lookup_app_r by (rewrite replicate_length; lia). rewrite replicate_length, list_lookup_fmap. by rewrite Ex.
  - replace c with (n - 1 + (c - (n - 1))) by lia. by apply good_leaf.
Qed.
Lemma build_ok sc sch L : 2 * 2 ^ L <= n -> exists tree, buildTree K sc sch (2 ^ L) pts = Done tree /\ treeOk tree.
Proof using HK.
  intros Hn. pose proof (pow2_pos L). unfold buildTree.
  destruct (up_all (mulNode K) (goodM K pts) n (mulNode_ok K HK pts) sc sch L (replicate (n - 1) [] ++ map (fun x => [fopp K x; f1 K]) pts)) as (subs & arr1 & arr2 & -> & -> & -> & E & H2).
  - rewrite app_length, replicate_length, map_length. lia.
  - done.
  - apply leaves_start.
  - destruct (mulNode_ok K HK pts arr2 0 E) as (p & -> & Hp); [lia|intros c Hc; apply H2; rewrite !elem_of_cons, elem_of_nil in Hc; unfold LEFT, RIGHT in Hc; lia|].
    eexists. split; [done|]. split; [by rewrite insert_length|]. intros c Hc. destruct c as [|c].
    + exists p. split; [|done]. apply list_lookup_insert. lia.
    + destruct (H2 (S c)) as (q & Eq & Hq); [lia|lia|]. exists q. by rewrite list_lookup_insert_ne.
Qed.

(** * Downwards *)
Context (P : list (fT K)) (tree : list (list (fT K))) (b0 : nat) (Htree : length tree = 2 * n - 1 /\ forall c, b0 <= c < 2 * n - 1 -> holds (goodM K pts) tree c).
Definition remOk (v : nat) (r : list (fT K)) : Prop := forall t i, heap n v t -> i ∈ leaves t -> ev r (pt K pts i) = ev P (pt K pts i).
Definition remDone (v : nat) (r : list (fT K)) : Prop := remOk v r /\ forall t, heap n v t -> length r <= length (leaves t).
Lemma leaves_papa v t t' i : heap n v t -> heap n (PAPA v) t' -> i ∈ leaves t -> i ∈ leaves t'.
Proof.
  intros Ht Ht' Hi. destruct (decide (v = 0)) as [-> |Hv0]; [by rewrite (heap_det _ _ _ Ht' _ Ht)|]. assert (0 < v) as Hv by lia. pose proof (heap_lt _ _ _ Ht). destruct (heap_inv K pts _ _ Ht') as (l & r & -> & H1 & H2); [unfold PAPA; lia|]. cbn. apply elem_of_app.
  destruct (child_cases v) as [E|E]; [done| |]; rewrite E in Ht; [left|right]; [by rewrite (heap_det _ _ _ H1 _ Ht)|by rewrite (heap_det _ _ _ H2 _ Ht)].
Qed.
Lemma remNode_ok rem v : length rem = 2 * n - 1 -> b0 <= v < 2 * n - 1 -> (forall c, c ∈ [PAPA v] -> c < 2 * n - 1 -> holds remOk rem c) ->
  exists p, remNode K tree rem v = Done (<[v := p]> rem) /\ remDone v p.
Proof using HK Htree.
  intros Hl Hv Hc. destruct (Hc (PAPA v)) as (a & Ea & Ha); [by left|unfold PAPA; lia|]. destruct Htree as [_ Ht]. destruct (Ht v) as (b & Eb & t & Hb1 & Hb2 & Hb3); [lia|].
  unfold remNode. rewrite Ea, Eb. destruct (lookup_lt_is_Some_2 rem v) as [o ->]; [lia|]. destruct (remP_ok K HK a b) as (r & -> & Hr1 & Hr2).
  { rewrite (monic_norm K HK _ _ Hb2). destruct Hb2 as (q & -> & _). by destruct q. }
  exists r. split; [done|]. assert (forall t', heap n v t' -> t' = t) as Hdet by (intros t' Ht'; by apply (heap_det _ _ _ Ht')). split.
  - intros t' i Ht' Hi. rewrite (Hdet _ Ht') in Hi. rewrite Hr2; [|rewrite (proj1 (Hb3 _)); by apply prodB_root].
    destruct (heap_exists n (PAPA v)) as [t2 Ht2]; [unfold PAPA; lia|]. apply (Ha t2); [done|]. exact (leaves_papa _ _ _ _ Hb1 Ht2 Hi).
  - intros t' Ht'. rewrite (Hdet _ Ht'). rewrite (monic_length K _ _ Hb2) in Hr1. lia.
Qed.
Lemma down_ops ops (D E : nat -> Prop) arr : length arr = 2 * n - 1 -> ready (fun v => [PAPA v]) D ops -> Forall (fun v => b0 <= v < 2 * n - 1) ops ->
  (forall c, D c -> c < 2 * n - 1 -> holds remOk arr c) -> (forall c, E c -> c < 2 * n - 1 -> holds remDone arr c) ->
  exists arr', runOps K (remNode K tree) ops arr = Done arr' /\ length arr' = 2 * n - 1 /\ (forall c, D c \/ c ∈ ops -> c < 2 * n - 1 -> holds remOk arr' c) /\ (forall c, E c \/ c ∈ ops -> c < 2 * n - 1 -> holds remDone arr' c).
Proof using HK Htree.
  intros Hl Hr Hv HD HE.
  destruct (runOps_ok (remNode K tree) (2 * n - 1) (fun v => [PAPA v]) (fun v => b0 <= v < 2 * n - 1) remOk remDone ltac:(cbn; lia) ltac:(by intros ?? []) remNode_ok ops D E arr) as (arr' & E1 & E2 & E3 & E4); [done..|].
  exists arr'. split; [done|]. split; [done|]. split; [|done]. intros c [Hc|Hc] Hs; [by apply E3|]. destruct (E4 c) as (q & Eq & Hq & _); [by right|done|]. by exists q.
Qed.
Lemma down_levels sch k : forall s arr, length arr = 2 * n - 1 -> 0 < s -> b0 <= 2 ^ s - 1 -> (k = 0 \/ 2 ^ (s + k) - 2 < 2 * n - 1) -> (forall c, c <= 2 ^ s - 2 -> c < 2 * n - 1 -> holds remOk arr c) ->
  exists arr', runLevels K (remNode K tree) sch (seq s k) arr = Done arr' /\ length arr' = 2 * n - 1 /\ forall c, c <= 2 ^ (s + k) - 2 -> c < 2 * n - 1 -> holds remOk arr' c.
Proof using HK Htree.
  induction k as [|k IH]; intros s arr Hl Hs0 Hb Hn HD.
  - exists arr. split; [done|]. split; [done|]. by rewrite Nat.add_0_r.
  - cbn [seq runLevels]. pose proof (pow2_pos s). assert (2 ^ S s <= 2 ^ (s + S k)) as Hle by (apply Nat.pow_le_mono_r; lia). assert (2 <= 2 ^ s) as H2 by (change 2 with (2 ^ 1) at 1; apply Nat.pow_le_mono_r; lia).
    destruct (down_ops (interleave (sch s) (map (fun j => [j]) (levelNodes s))) (fun c => c <= 2 ^ s - 2) (fun _ => False) arr) as (arr1 & -> & E2 & E3 & _); [done| | |done|done|].
    + apply level_ready. intros v c Hv ->%elem_of_list_singleton. cbn in Hv. unfold PAPA. lia.
    + apply Forall_forall. intros v Hv%level_in. lia.
    + replace (s + S k) with (S s + k) in * by lia. apply IH; [done|lia|cbn; lia|right; lia|].
      intros c Hc Hs. apply E3; [|done]. destruct (decide (c <= 2 ^ s - 2)) as [H'|H']; [by left|]. right. apply level_in. lia.
Qed.
Lemma evaluate_ok sc sch T old : b0 <= 3 -> b0 <= T - 1 -> 0 < T <= n -> 2 <= n -> length old = 2 * n - 1 -> evaluate K sc sch T n P tree old = Done (map (ev P) pts).
Proof using HK Htree.
  intros Hb3 HbT HT Hn Ho. unfold evaluate. replace (2 * n - 1 <? 3) with false by (symmetry; apply Nat.ltb_ge; lia).
  destruct (genSubs_ok T (2 * n - 1) (T - 1)) as (subs & -> & Hs1 & Hs2); [lia|]. unfold downLevels.
  assert (length ([P; P; P] ++ drop 3 old) = 2 * n - 1) as Hl0 by (rewrite app_length, drop_length; cbn; lia).
  assert (T <= 2 ^ Nat.log2_up T) as Hlog. { destruct (decide (T = 1)) as [-> |]; [cbn; lia|]. apply Nat.log2_log2_up_spec. lia. }
  assert (Nat.log2_up T - 2 = 0 \/ 2 ^ (2 + (Nat.log2_up T - 2)) - 2 < 2 * n - 1) as Hlv.
  { destruct (decide (Nat.log2_up T <= 2)) as [H|H]; [left; lia|]. right. replace (2 + (Nat.log2_up T - 2)) with (S (Nat.log2_up T - 1)) by lia. assert (1 < T) as HT1. { destruct (decide (T = 1)) as [-> |]; [cbn in H; lia|lia]. }
    pose proof (Nat.log2_up_spec T HT1) as [H1 _]. rewrite <- Nat.sub_1_r in H1. cbn. lia. }
  destruct (down_levels sch (Nat.log2_up T - 2) 2 ([P; P; P] ++ drop 3 old)) as (rem1 & -> & E1 & E2); [done|lia|cbn; lia|done| |].
  { intros c Hc Hs. cbn in Hc. exists P. split; [|by intros ???]. rewrite lookup_app_l by (cbn; lia). destruct c as [|[|[|c]]]; [done..|lia]. }
  assert (forall v, v ∈ interleave sc subs <-> exists i s, subs !! i = Some s /\ v ∈ s) as Hin by (intros v; by rewrite interleave_perm, concat_in).
  assert (T <= 2 ^ (2 + (Nat.log2_up T - 2))) as Hlog2. { etransitivity; [exact Hlog|]. apply Nat.pow_le_mono_r; lia. }
  destruct (down_ops (interleave sc subs) (fun c => c <= 2 ^ (2 + (Nat.log2_up T - 2)) - 2) (fun _ => False) rem1) as (rem2 & -> & E3 & _ & E4); [done| | |done|done|].
  - apply interleave_ready, Forall_forall. intros s Hs. apply elem_of_list_lookup in Hs as [i Hs]. destruct (Hs2 _ _ Hs) as [Hi Hok]. eapply sub_forward; [exact Hok|]. cbv beta. assert (2 ^ 2 <= 2 ^ (2 + (Nat.log2_up T - 2))) as H4 by (apply Nat.pow_le_mono_r; lia). change (2 ^ 2) with 4 in H4. unfold PAPA. lia.
  - apply Forall_forall. intros v Hv. apply Hin in Hv as (i & s & Hs & Hv). destruct (Hs2 _ _ Hs) as [Hi [Hok _]]. apply Hok in Hv as [-> |[Hv Hv2]]; [lia|apply below_ge in Hv; lia].
  - f_equal. replace ((2 * n - 1) / 2) with (n - 1) by lia. apply list_eq. intros i. rewrite !list_lookup_fmap, lookup_drop. destruct (decide (i < n)) as [Hi|Hi].
    + destruct (E4 (n - 1 + i)) as (r & Er & Hr1 & Hr2).
      * right. apply Hin. destruct (below_cover T (n - 1 + i)) as (k & Hk & Hb); [lia|lia|]. destruct (lookup_lt_is_Some_2 subs k) as [s Es]; [lia|]. exists k, s. split; [done|].
        destruct (Hs2 _ _ Es) as [_ [Hok _]]. apply Hok. right. split; [done|lia].
      * lia.
      * rewrite Er. destruct (lookup_lt_is_Some_2 pts i) as [x Ex]; [done|]. rewrite Ex. cbn. f_equal. assert (heap n (n - 1 + i) (Lf i)) as Hh. { replace i with (n - 1 + i - (n - 1)) at 2 by lia. constructor. lia. }
        specialize (Hr1 _ i Hh). specialize (Hr2 _ Hh). assert (pt K pts i = x) as Ep by (unfold pt; by apply nth_lookup_Some). rewrite Ep in Hr1. rewrite <- Hr1 by (by left). cbn in Hr2.
        destruct r as [|a [|b r]]; [done| |cbn in Hr2; lia]. cbn. ring.
    + rewrite !(proj2 (lookup_ge_None _ _)) by lia. done.
Qed.
End build.

(** * Interpolation *)
Section inter.
Context (K : fops) (HK : isField K) (pts : list (fT K)).
Add Field KF3 : (Kfield K HK).
Notation n := (length pts).
Notation ev := (evalAt K).
Context (M : list (list (fT K))) (HM : treeOk K pts M) (c : nat -> fT K).
Definition goodI (v : nat) (p : list (fT K)) : Prop := exists t, heap n v t /\ length p <= length (leaves t) /\ forall z, ev p z = linB K pts c t z.
Lemma leaves_pos t : 0 < length (leaves t).
Proof. induction t; cbn; [lia|rewrite app_length; lia]. Qed.
Lemma mulP_bound p q d e : length p <= d -> length q = S e -> length (mulP K p q) <= d + e.
Proof.
  intros Hp Hq. unfold mulP. etransitivity; [apply norm_length|]. destruct p as [|a p]; [cbn; lia|]. etransitivity; [apply pmul_length_lt; cbn; lia|]. lia.
Qed.
Lemma combine_ok temp v : v < n - 1 -> holds goodI temp (LEFT v) -> holds goodI temp (RIGHT v) -> exists p, combine K temp M v = Some p /\ goodI v p /\ normal K p.
Proof using HK HM.
  intros Hv (a & Ea & ta & Ha1 & Ha2 & Ha3) (b & Eb & tb & Hb1 & Hb2 & Hb3). destruct HM as [_ Hm].
  destruct (Hm (LEFT v)) as (ml & El & tl & Hl1 & Hl2 & Hl3); [unfold LEFT; lia|]. destruct (Hm (RIGHT v)) as (mr & Er & tr & Hr1 & Hr2 & Hr3); [unfold RIGHT; lia|].
  rewrite (heap_det _ _ _ Hl1 _ Ha1) in Hl2, Hl3. rewrite (heap_det _ _ _ Hr1 _ Hb1) in Hr2, Hr3. unfold combine. rewrite Ea, Eb, El, Er. eexists. split; [done|]. split; [|apply (norm_normal K HK)].
  exists (Nd ta tb). split; [by constructor|]. split.
  - unfold addP. etransitivity; [apply norm_length|]. rewrite padd_length. cbn. rewrite app_length. apply Nat.max_lub.
    + apply mulP_bound; [done|]. by rewrite (monic_length K _ _ Hr2).
    + rewrite Nat.add_comm. apply mulP_bound; [done|]. by rewrite (monic_length K _ _ Hl2).
  - intros z. cbn. rewrite (ev_addP K HK), !(ev_mulP K HK), Ha3, Hb3, (proj1 (Hl3 z)), (proj1 (Hr3 z)). done.
Qed.
Lemma interNode_ok arr v : length arr = 2 * n - 1 -> v < n - 1 -> (forall c, c ∈ [LEFT v; RIGHT v] -> c < 2 * n - 1 -> holds goodI arr c) ->
  exists p, interNode K M arr v = Done (<[v := p]> arr) /\ goodI v p.
Proof using HK HM.
  intros Hl Hv Hc. destruct (combine_ok arr v Hv) as (p & Ep & Hp & _); [apply Hc; [by left|unfold LEFT; lia]|apply Hc; [by right; left|unfold RIGHT; lia]|].
  unfold interNode. rewrite Ep. destruct (lookup_lt_is_Some_2 arr v) as [o ->]; [lia|]. by exists p.
Qed.
End inter.

Section interp.
Context (K : fops) (HK : isField K).
Add Field KF4 : (Kfield K HK).
Notation ev := (evalAt K).
Lemma interLeaves_ok (y : list (fT K)) : forall a, length a = length y -> (forall x, x ∈ a -> x <> f0 K) ->
  interLeaves K y a = Done (zip_with (fun v c => norm K [fmul K v (finv K c)]) y a).
Proof using HK.
  induction y as [|v y IH]; intros [|c a] Hl Ha; try (cbn in Hl; lia); [done|]. cbn [interLeaves zip_with]. destruct (feqb K c (f0 K)) eqn:E.
  - apply (feq K HK) in E. subst c. destruct (Ha (f0 K)); [by left|done].
  - rewrite IH; [done|cbn in Hl; lia|]. intros x Hx. apply Ha. by right.
Qed.
Lemma prepare_ok sc1 sc2 sch1 sch2 L pts : 2 * 2 ^ L <= length pts -> exists M t, prepare K sc1 sc2 sch1 sch2 (2 ^ L) pts = Done (M, map (dB K pts t) pts) /\ treeOk K pts M /\ heap (length pts) 0 t.
Proof using HK.
  intros Hn. pose proof (pow2_pos L) as HL. set (n := length pts) in *. unfold prepare.
  destruct (build_ok K HK pts sc1 sch1 L Hn) as (M & -> & HM). destruct HM as [HMl HMg]. destruct (HMg 0) as (m & Em & t & Ht & _ & Hm); [fold n; lia|]. rewrite Em. fold n.
  rewrite (evaluate_ok K HK pts (diffP K m) M 0 (conj HMl (fun c Hc => HMg c (proj2 Hc)))); [|lia|lia|fold n; lia|fold n; lia|by rewrite replicate_length].
  exists M, t. split; [|done]. do 2 f_equal. apply map_ext. intros x. by rewrite (ev_diff K HK), (proj2 (Hm x)).
Qed.
Lemma interpolateWith_ok sc sch L pts y M t old : 2 * 2 ^ L <= length pts -> length y = length pts -> NoDup pts -> treeOk K pts M -> heap (length pts) 0 t -> length old = length pts - 1 ->
  exists p, interpolateWith K sc sch (2 ^ L) y (map (dB K pts t) pts) M old = Done p /\ length p <= length pts /\ map (ev p) pts = y /\ normal K p.
Proof using HK.
  intros Hn Hy Hnd [HMl HMg] Ht Hold. pose proof (pow2_pos L) as HL. set (n := length pts) in *.
  set (a := map (dB K pts t) pts). assert (length a = n) as Ha by (unfold a; by rewrite map_length).
  pose proof (root_leaves _ _ Ht) as Hlv. fold n in Hlv.
  assert (forall i, i < n -> i ∈ leaves t) as Hleaf by (intros i Hi; rewrite Hlv; apply elem_of_seq; lia).
  assert (forall i x, pts !! i = Some x -> pt K pts i = x) as Hpt by (intros i x Hx; unfold pt; by apply nth_lookup_Some).
  assert (forall i, i < n -> dB K pts t (pt K pts i) <> f0 K) as Hd.
  { intros i Hi. apply dB_nonzero; [done|by apply Hleaf|by eapply heap_nodup|]. intros j Hj Hne E. rewrite Hlv in Hj. apply elem_of_seq in Hj.
    destruct (lookup_lt_is_Some_2 pts i Hi) as [x Ex]. destruct (lookup_lt_is_Some_2 pts j) as [x' Ex']; [fold n; lia|]. rewrite (Hpt _ _ Ex), (Hpt _ _ Ex') in E. subst x'. apply Hne. by eapply NoDup_lookup. }
  assert (forall i x, pts !! i = Some x -> a !! i = Some (dB K pts t x)) as Hai.
  { intros i x Hx. unfold a. by rewrite list_lookup_fmap, Hx. }
  unfold interpolateWith. rewrite Hy. fold n. replace (n <? 2) with false by (symmetry; apply Nat.ltb_ge; lia). rewrite (interLeaves_ok y a).
  2: { by rewrite Ha, Hy. }
  2: { intros x Hx. apply elem_of_list_lookup in Hx as [i Hx]. pose proof (lookup_lt_Some _ _ _ Hx) as Hi. rewrite Ha in Hi. destruct (lookup_lt_is_Some_2 pts i Hi) as [x' Ex]. rewrite (Hai _ _ Ex) in Hx. injection Hx as <-. rewrite <- (Hpt _ _ Ex). by apply Hd. }
  set (cc := fun i => fmul K (nth i y (f0 K)) (finv K (nth i a (f0 K)))).
  set (lv := zip_with _ y a). assert (length lv = n) as Hlvl by (unfold lv; rewrite zip_with_length_l_eq; lia).
  destruct (up_all (interNode K M) (goodI K pts cc) n (interNode_ok K HK pts M (conj HMl HMg) cc) sc sch L (old ++ lv)) as (subs & t1 & t2 & -> & -> & -> & E1 & E2).
  - rewrite app_length. lia.
  - done.
  - intros v Hv Hs. set (i := v - (n - 1)). destruct (lookup_lt_is_Some_2 y i) as [vy Ey]; [unfold i; lia|]. destruct (lookup_lt_is_Some_2 a i) as [va Ea]; [unfold i; lia|].
    exists (norm K [fmul K vy (finv K va)]). split.
    + rewrite lookup_app_r by lia. rewrite Hold. fold i. unfold lv. rewrite lookup_zip_with, Ey. cbn. by rewrite Ea.
    + exists (Lf i). split; [unfold i; constructor; fold n; lia|]. split; [etransitivity; [apply norm_length|done]|]. intros z. rewrite (ev_norm K HK). cbn. unfold cc.
      rewrite (nth_lookup_Some _ _ _ _ Ey), (nth_lookup_Some _ _ _ _ Ea). ring.
  - destruct (combine_ok K HK pts M (conj HMl HMg) cc t2 0) as (p & -> & (t' & Ht' & Hp1 & Hp2) & Hp3); [fold n; lia|apply E2; unfold LEFT; lia|apply E2; unfold RIGHT; lia|].
    rewrite (heap_det _ _ _ Ht' _ Ht) in Hp1, Hp2. exists p. split; [done|]. split; [|split; [|done]].
    + etransitivity; [exact Hp1|]. rewrite Hlv. by rewrite seq_length.
    + apply list_eq. intros i. rewrite list_lookup_fmap. destruct (decide (i < n)) as [Hi|Hi].
      * destruct (lookup_lt_is_Some_2 pts i Hi) as [x Ex]. destruct (lookup_lt_is_Some_2 y i) as [vy Ey]; [lia|]. rewrite Ex, Ey. cbn. f_equal. rewrite Hp2, <- (Hpt _ _ Ex), linB_root by (done || by apply Hleaf).
        unfold cc. rewrite (nth_lookup_Some _ _ _ _ Ey), (nth_lookup_Some _ _ _ _ (Hai _ _ Ex)), <- (Hpt _ _ Ex). field. by apply Hd.
      * rewrite !(proj2 (lookup_ge_None _ _)) by lia. done.
Qed.

Lemma interpolate_ok sc1 sc2 sc3 sch1 sch2 sch3 L pts y : 2 * 2 ^ L <= length pts -> length y = length pts -> NoDup pts ->
  exists p, interpolateZp K sc1 sc2 sc3 sch1 sch2 sch3 (2 ^ L) pts y = Done p /\ length p <= length pts /\ map (ev p) pts = y /\ normal K p.
Proof using HK.
  intros Hn Hy Hnd. unfold interpolateZp. destruct (prepare_ok sc1 sc2 sch1 sch2 L pts Hn) as (M & t & -> & HM & Ht). apply interpolateWith_ok; [done..|]. rewrite replicate_length. lia.
Qed.

(** Uniqueness. *)
Fixpoint sdiv (p : list (fT K)) (x : fT K) : list (fT K) := match p with [] => [] | a :: p' => match p' with [] => [] | _ => ev p' x :: sdiv p' x end end.
Lemma sdiv_ev p x z : ev p z = fadd K (ev p x) (fmul K (fsub K z x) (ev (sdiv p x) z)).
Proof using HK.
  induction p as [|a p IH]; [cbn; ring|]. destruct p as [|b p]; [cbn; ring|]. set (q := b :: p) in *. change (sdiv (a :: q) x) with (ev q x :: sdiv q x). cbn [evalAt]. rewrite IH. ring.
Qed.
Lemma sdiv_length p x : length (sdiv p x) = length p - 1.
Proof. induction p as [|a p IH]; [done|]. destruct p as [|b p]; [done|]. cbn [sdiv length] in *. rewrite IH. lia. Qed.
Lemma sdiv_zero p x : ev p x = f0 K -> Forall (fun a => a = f0 K) (sdiv p x) -> Forall (fun a => a = f0 K) p.
Proof using HK.
  induction p as [|a p IH]; [done|]. destruct p as [|b p].
  - cbn. intros H _. constructor; [|done]. rewrite <- H. ring.
  - set (q := b :: p) in *. change (sdiv (a :: q) x) with (ev q x :: sdiv q x). intros H [H1 H2]%Forall_cons. cbn [evalAt] in H. rewrite H1 in H. constructor; [rewrite <- H; ring|by apply IH].
Qed.
Lemma roots_zero xs : forall p, NoDup xs -> length p <= length xs -> (forall x, x ∈ xs -> ev p x = f0 K) -> Forall (fun a => a = f0 K) p.
Proof using HK.
  induction xs as [|x xs IH]; intros p Hnd Hl Hr; [destruct p; [done|cbn in Hl; lia]|]. apply NoDup_cons in Hnd as [Hx Hnd]. apply (sdiv_zero p x); [apply Hr; by left|].
  apply IH; [done|rewrite sdiv_length; cbn in Hl; lia|]. intros z Hz. pose proof (Hr z ltac:(by right)) as Hp. rewrite (sdiv_ev p x z), (Hr x) in Hp by by left.
  assert (fmul K (fsub K z x) (ev (sdiv p x) z) = f0 K) as Hp' by (rewrite <- Hp; ring). apply (mul_zero K HK) in Hp' as [H|H]; [|done]. apply (sub_zero K HK) in H. subst z. done.
Qed.
Lemma eval_unique xs p q : NoDup xs -> length p <= length xs -> length q <= length xs -> normal K p -> normal K q -> map (ev p) xs = map (ev q) xs -> p = q.
Proof using HK.
  intros Hnd Hp Hq Np Nq He. assert (Forall (fun a => a = f0 K) (padd K p (pscale K (fopp K (f1 K)) q))) as Hz.
  { apply (roots_zero xs); [done|rewrite padd_length, pscale_length; lia|]. intros x Hx. apply elem_of_list_lookup in Hx as [i Hx]. assert (map (ev p) xs !! i = map (ev q) xs !! i) as E by by rewrite He.
    rewrite !list_lookup_fmap, Hx in E. cbn in E. injection E as E. rewrite (ev_add K HK), (ev_scale K HK), E. ring. }
  clear -Hz Np Nq HK. assert (forall a, fmul K (fopp K (f1 K)) a = f0 K -> a = f0 K) as Hneg. { intros a H. assert (a = fopp K (fmul K (fopp K (f1 K)) a)) as E by ring. rewrite E, H. ring. }
  assert (forall a l, normal K (a :: l) -> normal K l) as Hcons. { intros a l H l' b E. apply (H (a :: l') b). by rewrite E. }
  assert (forall l, normal K l -> Forall (fun a => a = f0 K) l -> l = []) as Hnil. { intros l H Hf. destruct l as [|a l] using rev_ind; [done|]. apply Forall_app in Hf as [_ Hf]. apply Forall_cons in Hf as [-> _]. by destruct (H l (f0 K)). }
  revert q Hz Nq. induction p as [|a p IH]; intros q Hz Nq.
  - cbn in Hz. symmetry. apply Hnil; [done|]. unfold pscale in Hz. apply Forall_map in Hz. eapply Forall_impl; [exact Hz|]. cbn. intros a. apply Hneg.
  - destruct q as [|b q]; [cbn in Hz; by rewrite (Hnil (a :: p))|]. cbn in Hz. apply Forall_cons in Hz as [H1 H2]. f_equal.
    + apply (sub_zero K HK). rewrite <- H1. ring.
    + apply IH; [by eapply Hcons|done|by eapply Hcons].
Qed.
End interp.
