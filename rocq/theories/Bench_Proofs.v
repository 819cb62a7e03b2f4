(** If one schedule ends, all do. *)
From stdpp Require Import sorting sets.
From Verif Require Import Base Sched_Model Sched_Spec Sched_Proofs Sched_Proofs2 Sched_Proofs3 Bench_Model Bench_Spec.

(** Events of thread [i] with their positions in the trace. *)
Definition timed (i : nat) (tr : list (nat * ev)) : list (rank * ev) :=
  omap (fun tl : nat * (nat * ev) => if decide (tl.2.1 = i) then Some ((tl.1, 0%nat), tl.2.2) else None) (imap pair tr).
Lemma timed_snoc i tr l : timed i (tr ++ [l]) = timed i tr ++ (if decide (l.1 = i) then [((length tr, 0%nat), l.2)] else []).
Proof.
  unfold timed. rewrite imap_app, omap_app. f_equal. cbn. rewrite Nat.add_0_r. by destruct (decide (l.1 = i)).
Qed.
Lemma timed_evs i tr : evs (timed i tr) = thr i tr.
Proof.
  induction tr as [|l tr IH] using rev_ind; [done|]. rewrite timed_snoc, thr_app. unfold evs in *. rewrite map_app, IH. f_equal. unfold thr. cbn. by destruct (decide (l.1 = i)).
Qed.
Lemma timed_rank i tr r e : (r, e) ∈ timed i tr -> exists m, r = (m, 0%nat) /\ tr !! m = Some (i, e).
Proof.
  induction tr as [|l tr IH] using rev_ind; intros H; [by apply elem_of_nil in H|]. rewrite timed_snoc in H. apply elem_of_app in H as [H|H].
  - destruct (IH H) as (m & -> & Hm). exists m. split; [done|]. by apply lookup_app_l_Some.
  - destruct (decide (l.1 = i)) as [<-|]; [|by apply elem_of_nil in H]. apply elem_of_list_singleton in H. injection H as -> ->. exists (length tr). split; [done|].
    rewrite lookup_app_r, Nat.sub_diag by lia. by destruct l.
Qed.
Lemma timed_sorted i tr : StronglySorted rle (map fst (timed i tr)).
Proof.
  induction tr as [|l tr IH] using rev_ind; [constructor|]. rewrite timed_snoc, map_app.
  assert (forall (l1 l2 : list rank), StronglySorted rle l1 -> StronglySorted rle l2 -> (forall x y, x ∈ l1 -> y ∈ l2 -> rle x y) -> StronglySorted rle (l1 ++ l2)) as Hs.
  { intros l1 l2 H1 H2 H. induction H1 as [|x l1 H1 IH1 Hx]; [done|]. cbn. constructor.
    - apply IH1. intros y z Hy Hz. apply H; [by right|done].
    - apply Forall_app. split; [done|]. apply Forall_forall. intros y Hy. apply H; [by left|done]. }
  apply Hs; [done|by destruct (decide (l.1 = i)); repeat constructor|]. intros x y Hx Hy. destruct (decide (l.1 = i)); [|by apply elem_of_nil in Hy].
  cbn in Hy. apply elem_of_list_singleton in Hy as ->. apply elem_of_list_fmap in Hx as ([r e0] & -> & Hx). apply timed_rank in Hx as (m & -> & Hm).
  left. left. cbn. by apply lookup_lt_Some in Hm.
Qed.
Lemma timed_prefix i tr m : exists l, timed i tr = timed i (take m tr) ++ l /\ Forall (fun e => (m <= e.1.1)%nat) l.
Proof.
  induction tr as [|x tr IH] using rev_ind; [exists []; by rewrite take_nil|]. destruct IH as (l & E & Fl). destruct (decide (length tr < m)%nat) as [Hm|Hm].
  - exists []. rewrite take_ge by (rewrite app_length; cbn; lia). by rewrite app_nil_r.
  - rewrite take_app_le by lia. rewrite timed_snoc, E, <- app_assoc. eexists. split; [done|]. apply Forall_app. split; [done|]. destruct (decide (x.1 = i)); repeat constructor. cbn. lia.
Qed.
Lemma rsends_evs q l : map snd (rsends q l) = sendsOf q (evs l).
Proof. induction l as [|[r e] l IH]; [done|]. unfold rsends, evs, sendsOf in *. destruct e as [q' k|q' j k|q' n|a]; cbn; [destruct (decide (q' = q)); cbn; by rewrite IH|apply IH..]. Qed.
Lemma rsends_in q l r k : (r, k) ∈ rsends q l -> (r, Snd q k) ∈ l.
Proof. apply rsends_elem. Qed.
Lemma log_length n q tr : Forall (fun le => (le.1 < n)%nat) tr ->
  length (sentOn q (omap (fun le : nat * ev => match le.2 with Snd q k => Some (q, k) | _ => None end) tr)) = length (concat (map (fun i => rsends q (timed i tr)) (seq 0 n))).
Proof.
  induction tr as [|[i e] tr IH] using rev_ind; intros Ft.
  - cbn. assert (forall l, concat (map (fun i : nat => rsends q (timed i [])) l) = []) as -> by (intros l; induction l; done). done.
  - apply Forall_app in Ft as [Ft Fi]. rewrite Forall_singleton in Fi. cbn in Fi. rewrite omap_app, sentOn_app, app_length, (IH Ft). clear IH Ft.
    assert (forall l, NoDup l -> length (concat (map (fun j => rsends q (timed j (tr ++ [(i, e)]))) l)) =
      (length (concat (map (fun j => rsends q (timed j tr)) l)) + (if decide (i ∈ l) then length (rsends q [((length tr, 0%nat), e)]) else 0))%nat) as H.
    { intros l Nl. induction Nl as [|j l Hj Nl IH]; [cbn; by rewrite decide_False by (intros X; by apply elem_of_nil in X)|].
      cbn [map concat]. rewrite !app_length, IH, timed_snoc, rsends_app, app_length. cbn [fst snd]. destruct (decide (i = j)) as [<-|Hne].
      - rewrite (decide_False (P := i ∈ l)) by done. rewrite decide_True by (by left). lia.
      - destruct (decide (i ∈ l)) as [Hin|Hin].
        + rewrite decide_True by (by right). cbn. lia.
        + rewrite decide_False by (rewrite elem_of_cons; tauto). cbn. lia. }
    rewrite (H _ (NoDup_seq 0 n)), decide_True by (apply elem_of_seq; lia). f_equal.
    destruct e as [q' k|q' j k|q' m|a]; cbn; try done. unfold sentOn, rsends. cbn. by destruct (decide (q' = q)).
Qed.
Lemma trace_threads scripts tr s : exec (start scripts) tr s -> Forall (fun le => (le.1 < length scripts)%nat) tr.
Proof.
  intros H. apply Forall_lookup. intros m [i e] Hm. destruct (exec_at _ _ _ _ _ H Hm) as (s1 & s2 & H1 & Hs). apply step_inv in Hs as (rest & Ht & _).
  apply lookup_lt_Some in Ht. by rewrite (exec_todo_length _ _ _ H1) in Ht.
Qed.
Lemma sendsOf_in q l k : k ∈ sendsOf q l <-> Snd q k ∈ l.
Proof.
  unfold sendsOf. rewrite elem_of_list_omap. split.
  - intros ([q' k'|q' j k'|q' n|a] & Hin & E); try discriminate E. destruct (decide (q' = q)) as [->|]; [|discriminate E]. by injection E as ->.
  - intros H. exists (Snd q k). split; [done|]. by rewrite decide_True by done.
Qed.

Theorem one_suffices scripts tr s : oneSender scripts -> channelGets scripts -> exec (start scripts) tr s -> finished s -> completes scripts.
Proof.
  intros One CG He Hf.
  assert (forall i l, scripts !! i = Some l -> l = thr i tr) as Hthr.
  { intros i l Hl. destruct (exec_thr _ _ _ _ _ He Hl) as (rest & Hr & ->). assert (rest = []) as ->; [|by rewrite app_nil_r].
    unfold finished in Hf. rewrite Forall_lookup in Hf. exact (Hf _ _ Hr). }
  set (a := map (fun i => timed i tr) (seq 0 (length scripts))).
  assert (forall i l, a !! i = Some l -> l = timed i tr /\ scripts !! i = Some (thr i tr)) as Ha.
  { intros i l Hl. unfold a in Hl. apply list_lookup_fmap_inv in Hl as (j & -> & Hj). apply lookup_seq in Hj as [-> Hi]. cbn. split; [done|].
    destruct (scripts !! i) as [l|] eqn:El; [f_equal; by apply Hthr|]. apply lookup_ge_None in El. lia. }
  assert (forall u, (u < length scripts)%nat -> a !! u = Some (timed u tr)) as Hau.
  { intros u Hu. unfold a. rewrite list_lookup_fmap, lookup_seq_lt by done. done. }
  assert (map evs a = scripts) as Eev.
  { apply list_eq. intros i. unfold a. rewrite map_map, list_lookup_fmap. destruct (decide (i < length scripts)%nat) as [Hi|Hi].
    - rewrite lookup_seq_lt by done. cbn. rewrite timed_evs. destruct (scripts !! i) as [l|] eqn:El; [f_equal; symmetry; by apply Hthr|]. apply lookup_ge_None in El. lia.
    - rewrite lookup_seq_ge by lia. symmetry. apply lookup_ge_None. lia. }
  rewrite <- Eev. apply ranked_completes. clear Hf Eev. split.
  - intros i l Hl. destruct (Ha _ _ Hl) as [-> _]. apply timed_sorted.
  - intros i l r q j k Hl Hin. destruct (Ha _ _ Hl) as [-> Hs]. apply timed_rank in Hin as Hm. destruct Hm as (m & -> & Hm).
    destruct q as [c d|p b].
    2:{ exfalso. unfold channelGets in CG. rewrite Forall_lookup in CG. specialize (CG _ _ Hs). rewrite Forall_forall in CG.
        assert (Get (Barrier p b) j k ∈ thr i tr) as X by (rewrite <- timed_evs; unfold evs; apply elem_of_list_fmap; by exists ((m, 0)%nat, Get (Barrier p b) j k)). by apply CG in X. }
    destruct (exec_at _ _ _ _ _ He Hm) as (s1 & s2 & H1 & Hst). apply step_inv in Hst as (rest & _ & Hen). cbn [enabled] in Hen.
    assert (exists u, (u < length scripts)%nat /\ Snd (Chan c d) k ∈ thr u (take m tr)) as (u & Hu & Hsnd).
    { apply elem_of_list_lookup_2 in Hen. rewrite (exec_log _ _ _ H1) in Hen. unfold sentOn in Hen. apply elem_of_list_omap in Hen as ([q' k'] & Hin' & E).
      cbn in E. destruct (decide (q' = Chan c d)) as [->|]; [|discriminate E]. injection E as ->. apply elem_of_list_omap in Hin' as ([u e] & Hin' & E). destruct e as [q'' k''| | |]; cbn in E; try discriminate E.
      injection E as -> ->. exists u. split.
      - pose proof (trace_threads _ _ _ H1) as Ft. rewrite Forall_forall in Ft. by apply Ft in Hin'.
      - unfold thr. apply elem_of_list_omap. exists (u, Snd (Chan c d) k). split; [done|]. cbn. by rewrite decide_True by done. }
    assert (scripts !! u = Some (thr u tr)) as Hsu by (by apply (Ha u (timed u tr)), Hau).
    assert (Snd (Chan c d) k ∈ thr u tr) as Hsnd2. { rewrite <- (take_drop m tr), thr_app. apply elem_of_app. by left. }
    assert (forall v lv, scripts !! v = Some lv -> v <> u -> sendsOf (Chan c d) lv = []) as Hno.
    { intros v lv Hv Hne. destruct (sendsOf (Chan c d) lv) as [|k' l'] eqn:E; [done|]. exfalso. apply Hne. apply (One c d v u lv (thr u tr) k' k); try done. apply sendsOf_in. rewrite E. by left. }
    exists u, (timed u tr). pose proof (sent_by _ _ _ _ _ _ H1 Hsu Hno) as Hsent. rewrite Hsent in Hen.
    rewrite <- timed_evs, <- rsends_evs in Hen. apply list_lookup_fmap_inv in Hen as ([r' k'] & E & Hr). cbn in E. subst k'.
    destruct (timed_prefix u tr m) as (l2 & El2 & _). exists r'. split; [by apply Hau|]. split; [|split].
    + intros v lv Hv Hne. destruct (Ha _ _ Hv) as [-> Hsv]. assert (map snd (rsends (Chan c d) (timed v tr)) = []) as X by (rewrite rsends_evs, timed_evs; by apply (Hno v)). by apply map_eq_nil in X.
    + rewrite El2, rsends_app. by apply lookup_app_l_Some.
    + apply elem_of_list_lookup_2, rsends_in, timed_rank in Hr as (m' & -> & Hm'). left. cbn. apply lookup_lt_Some in Hm'. rewrite take_length in Hm'. lia.
  - intros i l r q n Hl Hin. destruct (Ha _ _ Hl) as [-> Hs]. apply timed_rank in Hin as (m & -> & Hm).
    destruct (exec_at _ _ _ _ _ He Hm) as (s1 & s2 & H1 & Hst). apply step_inv in Hst as (rest & _ & Hen). cbn [enabled] in Hen.
    rewrite (exec_log _ _ _ H1), (log_length (length scripts)) in Hen by (by eapply trace_threads).
    etransitivity; [exact Hen|]. unfold a. rewrite map_map. generalize (seq 0 (length scripts)). intros is. clear.
    induction is as [|i is IH]; [cbn; lia|]. cbn [map concat]. unfold before in *. rewrite filter_app, !app_length.
    assert (length (rsends q (timed i (take m tr))) <= length (filter (fun e : rank * N => rlt e.1 (m, 0%nat)) (rsends q (timed i tr))))%nat; [|lia].
    destruct (timed_prefix i tr m) as (l2 & -> & _). rewrite rsends_app, filter_app, app_length.
    assert (filter (fun e : rank * N => rlt e.1 (m, 0%nat)) (rsends q (timed i (take m tr))) = rsends q (timed i (take m tr))) as ->; [|lia].
    generalize (fun r k => rsends_in q (timed i (take m tr)) r k). generalize (rsends q (timed i (take m tr))). intros rs Hrs.
    induction rs as [|[r k] rs IHr]; [done|]. rewrite filter_cons_True; [f_equal; apply IHr; intros; apply Hrs; by right|].
    destruct (timed_rank i (take m tr) r _ (Hrs r k ltac:(by left))) as (m' & -> & Hm'). left. cbn. apply lookup_lt_Some in Hm'. rewrite take_length in Hm'. lia.
Qed.
