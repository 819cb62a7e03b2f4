(** The three PRTY protocols: they complete, their phases do not overlap. *)
From stdpp Require Import sorting sets.
From Verif Require Import Base Partition_Model Sched_Model Sched_Spec Sched_Proofs Sched_Proofs2 Sched_Proofs3 Threads_Model Threads_Proofs Threads_Proofs2 Threads_Proofs4 DrrnThreads_Proofs2 Kkrt_Model Phases_Model Phases_Spec Phases_Proofs2.

Lemma threads_lookup P f i w : threads P f !! i = Some w -> w = f i /\ (i < pT P)%nat.
Proof. unfold threads. intros H. apply list_lookup_fmap_inv in H as (t & -> & H). apply lookup_seq in H as [-> H]. done. Qed.
Lemma threads_length P f : length (threads P f) = pT P.
Proof. unfold threads. by rewrite map_length, seq_length. Qed.
Lemma threads_elem P f w : w ∈ threads P f -> exists t, w = f t /\ (t < pT P)%nat.
Proof. intros H. apply elem_of_list_lookup in H as [i H]. exists i. by apply threads_lookup. Qed.
Lemma threads_in P f t : (t < pT P)%nat -> f t ∈ threads P f.
Proof. intros H. unfold threads. apply elem_of_list_fmap. exists t. split; [done|]. apply elem_of_seq. lia. Qed.

(** The threads that send on channels: one for each channel. *)
Definition oneEach (l : list work) : Prop := forall i j w v, l !! i = Some w -> l !! j = Some v -> wCh w = wCh v -> wSend w <> [] -> wSend v <> [] -> i = j.
Definition silent (l : list work) : Prop := Forall (fun w => wSend w = []) l.
Lemma one_app_l l1 l2 : silent l1 -> oneEach l2 -> oneEach (l1 ++ l2).
Proof.
  intros H1 H2 i j w v Hi Hj Hc Hw Hv. unfold silent in H1. rewrite Forall_lookup in H1.
  apply lookup_app_Some in Hi as [Hi|[Hgi Hi]]; [by rewrite (H1 _ _ Hi) in Hw|]. apply lookup_app_Some in Hj as [Hj|[Hgj Hj]]; [by rewrite (H1 _ _ Hj) in Hv|].
  specialize (H2 _ _ _ _ Hi Hj Hc Hw Hv). lia.
Qed.
Lemma one_app_r l1 l2 : oneEach l1 -> silent l2 -> oneEach (l1 ++ l2).
Proof.
  intros H2 H1 i j w v Hi Hj Hc Hw Hv. unfold silent in H1. rewrite Forall_lookup in H1.
  apply lookup_app_Some in Hi as [Hi|[Hgi Hi]]; [|by rewrite (H1 _ _ Hi) in Hw]. apply lookup_app_Some in Hj as [Hj|[Hgj Hj]]; [|by rewrite (H1 _ _ Hj) in Hv]. by eapply H2.
Qed.
Lemma one_threads P f : (forall t, wCh (f t) = t) -> oneEach (threads P f).
Proof. intros H i j w v Hi Hj. apply threads_lookup in Hi as [-> _]. apply threads_lookup in Hj as [-> _]. rewrite !H. done. Qed.
Lemma silent_threads P f : (forall t, wSend (f t) = []) -> silent (threads P f).
Proof. intros H. apply Forall_forall. intros w Hw. apply threads_elem in Hw as (t & -> & _). done. Qed.
Lemma one_single w : oneEach [w].
Proof. intros i j a b Hi Hj _ _ _. apply list_lookup_singleton_Some in Hi as [Hi _], Hj as [Hj _]. congruence. Qed.

Ltac inw H := repeat match type of H with
  | _ ∈ _ ++ _ => apply elem_of_app in H as [H|H]
  | _ ∈ threads _ _ => let t := fresh "t" in let E := fresh "E" in apply threads_elem in H as (t & E & H); subst
  | _ ∈ _ :: _ => apply elem_of_cons in H as [H|H]; [subst|]
  | _ ∈ [] => by apply elem_of_nil in H
  end.

Lemma out_completes P : pBinsS P = pBinsR P -> pNS P = pNR P -> completes (outScripts P).
Proof.
  intros Hb Hn. apply (phases_complete 2 (fun p : bool => if p then outS P else outR P)).
  - intros p w H. destruct p; unfold outS, outR in H; inw H; cbn; lia.
  - intros p. change (oneEach (if p then outS P else outR P)). destruct p; unfold outS, outR.
    + apply one_app_l; [by apply silent_threads|by apply one_threads].
    + apply one_app_r; [by apply one_threads|by apply silent_threads].
  - intros p w H Hg. destruct p; unfold outS, outR in H |- *; cbn [negb]; inw H; cbn [wGet wCh phase] in *; try done.
    + exists (mkWork 0 t (pPolys P (pBinsR P) t) []). split; [apply elem_of_app; left; by apply (threads_in P (fun t => mkWork 0 t (pPolys P (pBinsR P) t) []))|]. cbn. by rewrite Hb.
    + exists (mkWork 1 t (pMasks P (pNS P) t) []). split; [apply elem_of_app; right; by apply (threads_in P (fun t => mkWork 1 t (pMasks P (pNS P) t) []))|]. cbn. by rewrite Hn.
Qed.
Lemma best_completes P : pBinsS P = pBinsR P -> completes (bestScripts P).
Proof.
  intros Hb. apply (phases_complete 2 (fun p : bool => if p then bestS P else bestR P)).
  - intros p w H. destruct p; unfold bestS, bestR in H; destruct (1 <? pT P)%nat; inw H; cbn; lia.
  - intros p. change (oneEach (if p then bestS P else bestR P)). destruct p; unfold bestS, bestR.
    + apply one_app_l; [by apply silent_threads|]. destruct (1 <? pT P)%nat; [|apply one_single].
      intros i j w v Hi Hj Hc _ _. destruct i as [|[|i]]; [| |done]; injection Hi as <-; (destruct j as [|[|j]]; [| |done]; injection Hj as <-); done.
    + apply one_app_r; [by apply one_threads|]. destruct (1 <? pT P)%nat; by repeat constructor.
  - intros p w H Hg. destruct p; unfold bestS, bestR in H |- *; cbn [negb].
    + apply elem_of_app in H as [H|H]; [|destruct (1 <? pT P)%nat; inw H; done]. inw H. cbn [wGet wCh phase] in *.
      exists (mkWork 0 t (pPolys P (pBinsR P) t) []). split; [apply elem_of_app; left; by apply (threads_in P (fun t => mkWork 0 t (pPolys P (pBinsR P) t) []))|]. cbn. by rewrite Hb.
    + apply elem_of_app in H as [H|H]; [by inw H|]. destruct (1 <? pT P)%nat; inw H; cbn [wGet wCh phase] in *.
      * exists (mkWork 1 0 [bestLen P 0] []). split; [set_solver|done].
      * exists (mkWork 1 1 [bestLen P 1] []). split; [set_solver|done].
      * exists (mkWork 1 0 [bestLen P 0; bestLen P 1] []). split; [set_solver|done].
Qed.
Lemma big_completes P : pNS P = pNR P -> completes (bigScripts P).
Proof.
  intros Hn. apply (phases_complete 4 (fun p : bool => if p then bigS P else bigR P)).
  - intros p w H. destruct p; unfold bigS, bigR in H; inw H; cbn; lia.
  - intros p. change (oneEach (if p then bigS P else bigR P)). destruct p; unfold bigS, bigR.
    + apply one_app_l; [by apply silent_threads|]. apply one_app_l; [by repeat constructor|]. apply one_app_l; [by apply silent_threads|by apply one_threads].
    + apply one_app_l; [by apply silent_threads|]. apply one_app_r; [apply one_single|by apply silent_threads].
  - intros p w H Hg. destruct p; unfold bigS, bigR in H |- *; cbn [negb]; inw H; cbn [wGet wCh phase] in *; try done.
    + exists (mkWork 1 0 (bigPolys P) []). split; [set_solver|done].
    + exists (mkWork 3 t (pBig P (pNS P) t) []). split; [|cbn; by rewrite Hn]. do 3 (apply elem_of_app; right). by apply (threads_in P (fun t => mkWork 3 t (pBig P (pNS P) t) [])).
Qed.

(** ** More bins at the sender *)

Lemma hangs scripts i l q j k : scripts !! i = Some l -> Get q j k ∈ l -> (length (concat (map (sendsOf q) scripts)) <= j)%nat -> neverEnds scripts.
Proof.
  intros Hl Hin Hj tr s Hex Hfin. destruct (exec_thr _ _ _ _ _ Hex Hl) as (rest & Hr & E). rewrite Forall_lookup in Hfin. rewrite (Hfin _ _ Hr), app_nil_r in E.
  rewrite E in Hin. apply (executed _ _ _ _ _ Hex) in Hin. cbn in Hin. apply lookup_lt_Some in Hin.
  pose proof (sent_bound _ q _ _ Hex). lia.
Qed.
Lemma worker_sends p w v d : sendsOf (Chan v d) (worker p w) = if (Bool.eqb d p && (wCh w =? v)%nat)%bool then wSend w else [].
Proof.
  unfold worker. rewrite !sendsOf_app, sendsOf_wai, sendsOf_nil, sendsOf_sends, sendsOf_gets, sendsOf_snd, sendsOf_nil, (decide_False (P := Barrier _ _ = _)) by done.
  cbn [app]. rewrite ?app_nil_r. destruct (Nat.eqb_spec (wCh w) v) as [->|Hne]; [|rewrite andb_false_r, decide_False by congruence; done].
  destruct (Bool.eqb_spec d p) as [->|Hne]; [by rewrite decide_True|]. rewrite decide_False by congruence. done.
Qed.
Lemma main_sends2 p n ws v d : sendsOf (Chan v d) (mainOf p n ws) = [].
Proof. unfold mainOf. induction (seq 0 n) as [|k l IH]; [done|]. cbn [map concat]. rewrite sendsOf_app, IH. done. Qed.
Lemma party_sends p n ws v d : concat (map (sendsOf (Chan v d)) (party p n ws)) = if Bool.eqb d p then concat (map wSend (List.filter (fun w => (wCh w =? v)%nat) ws)) else [].
Proof.
  unfold party. cbn [map concat]. rewrite main_sends2, map_map. cbn [app]. induction ws as [|w ws IH]; [by destruct (Bool.eqb d p)|]. cbn [map concat List.filter].
  rewrite IH, worker_sends. destruct (Bool.eqb d p), (wCh w =? v)%nat; done.
Qed.
Lemma filter_threads P f v : (forall t, wCh (f t) = t) -> concat (map wSend (List.filter (fun w => (wCh w =? v)%nat) (threads P f))) = if (v <? pT P)%nat then wSend (f v) else [].
Proof.
  intros H. unfold threads. assert (forall s n, concat (map wSend (List.filter (fun w => (wCh w =? v)%nat) (map f (seq s n)))) = if ((s <=? v) && (v <? s + n))%nat then wSend (f v) else []) as G.
  { intros s n. revert s. induction n as [|n IH]; intros s; cbn [seq map List.filter].
    - destruct (Nat.leb_spec s v), (Nat.ltb_spec v (s + 0)); cbn; done || lia.
    - rewrite H. destruct (Nat.eqb_spec s v) as [->|Hne]; cbn [map concat]; rewrite IH.
      + destruct (Nat.leb_spec (S v) v), (Nat.leb_spec v v), (Nat.ltb_spec v (v + S n)); cbn [andb]; try lia. by rewrite app_nil_r.
      + destruct (Nat.leb_spec (S s) v), (Nat.leb_spec s v), (Nat.ltb_spec v (S s + n)), (Nat.ltb_spec v (s + S n)); cbn [andb]; done || lia. }
  rewrite G. done.
Qed.
Lemma filter_nil f (l : list work) : silent l -> concat (map wSend (List.filter f l)) = [].
Proof. unfold silent. induction 1 as [|w l Hw _ IH]; [done|]. cbn. destruct (f w); cbn; [by rewrite Hw, IH|done]. Qed.
(** A thread of the sender that expects more polynomials than the receiver's thread sends. *)
Lemma poly_hangs n (ws vs : list work) P t : ws !! t = Some (mkWork 0 t [] (pPolys P (pBinsS P) t)) ->
  concat (map wSend (List.filter (fun w => (wCh w =? t)%nat) vs)) = pPolys P (pBinsR P) t ->
  (length (pPolys P (pBinsR P) t) < length (pPolys P (pBinsS P) t))%nat -> neverEnds (party true n ws ++ party false n vs).
Proof.
  intros Hw Hs Hlt. destruct (proj2 (lookup_lt_is_Some (pPolys P (pBinsS P) t) _) Hlt) as [k Hk].
  eapply (hangs _ (S t) (worker true (mkWork 0 t [] (pPolys P (pBinsS P) t))) (Chan t false) (length (pPolys P (pBinsR P) t)) k).
  - apply lookup_app_l_Some. unfold party. change (map (worker true) ws !! t = Some (worker true (mkWork 0 t [] (pPolys P (pBinsS P) t)))). by rewrite list_lookup_fmap, Hw.
  - unfold worker. cbn [wCh wGet negb]. apply elem_of_app. right. apply elem_of_app. right. apply elem_of_app. left. unfold gets. apply elem_of_lookup_imap.
    exists (length (pPolys P (pBinsR P) t)), k. done.
  - rewrite map_app, concat_app, !party_sends. cbn [Bool.eqb app]. by rewrite Hs.
Qed.
Lemma out_hangs P t : (t < pT P)%nat -> (length (pPolys P (pBinsR P) t) < length (pPolys P (pBinsS P) t))%nat -> neverEnds (outScripts P).
Proof.
  intros Ht. apply poly_hangs.
  - unfold outS. apply lookup_app_l_Some. unfold threads. by rewrite list_lookup_fmap, lookup_seq_lt.
  - unfold outR. rewrite List.filter_app, map_app, concat_app, filter_threads by done. rewrite (filter_nil _ (threads P _)) by (by apply silent_threads).
    rewrite app_nil_r, (proj2 (Nat.ltb_lt _ _) Ht). done.
Qed.
Lemma best_hangs P t : (t < pT P)%nat -> (length (pPolys P (pBinsR P) t) < length (pPolys P (pBinsS P) t))%nat -> neverEnds (bestScripts P).
Proof.
  intros Ht. apply poly_hangs.
  - unfold bestS. apply lookup_app_l_Some. unfold threads. by rewrite list_lookup_fmap, lookup_seq_lt.
  - unfold bestR. rewrite List.filter_app, map_app, concat_app, filter_threads by done. rewrite (filter_nil _ (if (1 <? pT P)%nat then _ else _)) by (destruct (1 <? pT P)%nat; by repeat constructor).
    rewrite app_nil_r, (proj2 (Nat.ltb_lt _ _) Ht). done.
Qed.
