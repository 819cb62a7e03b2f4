(** Every schedule of threads in phases completes. *)
From stdpp Require Import sorting sets.
From Verif Require Import Base Partition_Model Sched_Model Sched_Spec Sched_Proofs Sched_Proofs2 Sched_Proofs3 Threads_Model Threads_Proofs Threads_Proofs2 Threads_Proofs4 Kkrt_Model Phases_Model.

Section phases.
Variables (n : nat) (ws : bool -> list work).
Hypothesis low : forall p w, w ∈ ws p -> (phase w < n)%nat.
Hypothesis uniq : forall p i j w v, ws p !! i = Some w -> ws p !! j = Some v -> wCh w = wCh v -> wSend w <> [] -> wSend v <> [] -> i = j.
Hypothesis meet : forall p w, w ∈ ws p -> wGet w <> [] -> exists v, v ∈ ws (negb p) /\ wCh v = wCh w /\ wSend v = wGet w /\ (phase v <= phase w)%nat.

Definition workB (p : bool) (w : work) : list (nat * list (rank * ev)) :=
  [seg (5 * phase w + 1) [Wai (Barrier p (startB (phase w))) 1]; seg (5 * phase w + 2) (sends (Chan (wCh w) p) (wSend w));
   seg (5 * phase w + 3) (gets (Chan (wCh w) (negb p)) 0 (wGet w) ++ [Snd (Barrier p (endB (phase w))) 0])].
Definition workR (p : bool) (w : work) : list (rank * ev) := flat (workB p w).
Definition mainB (p : bool) (k : nat) : list (rank * ev) :=
  [((5 * k, 0)%nat, Snd (Barrier p (startB k)) 0); ((5 * k + 4, 0)%nat, Wai (Barrier p (endB k)) (count (ws p) k))].
Definition mainR (p : bool) : list (rank * ev) := concat (map (mainB p) (seq 0 n)).
Definition partyR (p : bool) : list (list (rank * ev)) := mainR p :: map (workR p) (ws p).
Definition pall : list (list (rank * ev)) := partyR true ++ partyR false.

Lemma p_scripts : map evs pall = party true n (ws true) ++ party false n (ws false).
Proof using. clear low uniq meet.
  unfold pall. rewrite map_app. assert (forall p, map evs (partyR p) = party p n (ws p)) as H; [|by rewrite !H].
  intros p. unfold partyR, party. cbn [map]. f_equal.
  - unfold mainR, mainOf, evs. generalize (seq 0 n). intros l. induction l as [|k l IH]; [done|]. cbn [map concat app mainB]. cbn [snd]. by rewrite IH.
  - rewrite map_map. apply map_ext. intros w. unfold workR. rewrite flat_evs. unfold workB, worker. cbn [map concat]. rewrite !seg_evs. by rewrite ?app_nil_r.
Qed.
Lemma main_sends_c p v d : rsends (Chan v d) (mainR p) = [].
Proof using. clear low uniq meet. unfold mainR. generalize (seq 0 n). intros l. induction l as [|k l IH]; [done|]. cbn [map concat]. rewrite rsends_app, IH. done. Qed.
Lemma work_sends p w v d : rsends (Chan v d) (workR p w) = if (Bool.eqb d p && (wCh w =? v)%nat)%bool then map (pair (5 * phase w + 2, 0)%nat) (wSend w) else [].
Proof using. clear low uniq meet.
  unfold workR, workB. simp_sends. rewrite (decide_False (P := Barrier _ _ = _)) by done. cbn [app map]. rewrite app_nil_r.
  destruct (Nat.eqb_spec (wCh w) v) as [->|Hne]; [|rewrite andb_false_r, decide_False by congruence; done].
  destruct (Bool.eqb_spec d p) as [->|Hne]; [by rewrite decide_True|]. rewrite decide_False by congruence. done.
Qed.
Lemma pall_lookup i l : pall !! i = Some l ->
  exists p : bool, i = (if p then 0 else S (length (ws true)))%nat /\ l = mainR p \/ exists x w, i = ((if p then 0 else S (length (ws true))) + S x)%nat /\ ws p !! x = Some w /\ l = workR p w.
Proof using. clear low uniq meet.
  unfold pall. intros [H|[Hge H]]%lookup_app_Some.
  - exists true. unfold partyR in H. destruct i as [|x]; cbn in H; [left; split; [done|congruence]|]. right. apply list_lookup_fmap_inv in H as (w & -> & H). exists x, w. done.
  - exists false. unfold partyR in Hge. cbn [length] in Hge. rewrite map_length in Hge.
    replace (length (partyR true)) with (S (length (ws true))) in H by (unfold partyR; cbn [length]; by rewrite map_length).
    destruct (i - S (length (ws true)))%nat as [|x] eqn:E; cbn in H; [left; split; [lia|congruence]|]. right. apply list_lookup_fmap_inv in H as (w & -> & H).
    exists x, w. split; [lia|done].
Qed.
Lemma pall_work p x w : ws p !! x = Some w -> pall !! ((if p then 0 else S (length (ws true))) + S x)%nat = Some (workR p w).
Proof using. clear low uniq meet.
  intros H. unfold pall, partyR. destruct p.
  - apply lookup_app_l_Some. change (map (workR true) (ws true) !! x = Some (workR true w)). by rewrite list_lookup_fmap, H.
  - rewrite lookup_app_r by (cbn [length]; rewrite map_length; lia). cbn [length]. rewrite map_length. replace (S (length (ws true)) + S x - S (length (ws true)))%nat with (S x) by lia.
    change (map (workR false) (ws false) !! x = Some (workR false w)). by rewrite list_lookup_fmap, H.
Qed.
Lemma in_main p k r e : (r, e) ∈ mainB p k -> (k < n)%nat -> (r, e) ∈ mainR p.
Proof using. clear low uniq meet. intros H Hk. unfold mainR. apply elem_of_list_In, in_concat. exists (mainB p k). split; [|by apply elem_of_list_In]. apply elem_of_list_In, elem_of_list_fmap. exists k. split; [done|]. apply elem_of_seq. lia. Qed.
Lemma main_elem p r e : (r, e) ∈ mainR p -> exists k, (k < n)%nat /\ (r, e) ∈ mainB p k.
Proof using. clear low uniq meet.
  unfold mainR. intros H. apply elem_of_list_In, in_concat in H as (l & Hl & H). apply elem_of_list_In, elem_of_list_fmap in Hl as (k & -> & Hk). apply elem_of_seq in Hk.
  exists k. split; [lia|by apply elem_of_list_In].
Qed.
Lemma main_sorted p : StronglySorted rle (map fst (mainR p)).
Proof using. clear low uniq meet.
  unfold mainR. generalize 0%nat as s. induction n as [|m IH]; intros s; [constructor|]. cbn [seq map concat mainB app].
  assert (forall k r, (k < S s)%nat -> r = (5 * k, 0)%nat \/ r = (5 * k + 4, 0)%nat -> Forall (rle r) (map fst (concat (map (mainB p) (seq (S s) m))))) as Hf.
  { intros k r Hk Hr. apply Forall_forall. intros [a b] Hab. apply elem_of_list_fmap in Hab as ([[a' b'] e] & [= <- <-] & Hab).
    apply elem_of_list_In, in_concat in Hab as (l & Hl & H). apply elem_of_list_In, elem_of_list_fmap in Hl as (k' & -> & Hk'). apply elem_of_seq in Hk'. apply elem_of_list_In in H.
    left. unfold mainB in H. destruct Hr as [-> | ->]; parts H; injection H as -> -> ->; left; cbn; lia. }
  cbn [fst]. constructor; [constructor; [apply IH|]|]; [eapply Hf; [|by right]; lia|]. constructor; [left; left; cbn; lia|]. eapply Hf; [|by left]. lia.
Qed.
Lemma work_sorted p w : StronglySorted rle (map fst (workR p w)).
Proof using. clear low uniq meet ws n.
  unfold workR, workB. apply flat_sorted.
  - unfold increasing. cbn [map fst seg]. rewrite !(proj2 (Nat.ltb_lt _ _)) by lia. done.
  - repeat (apply Forall_cons_2; [apply seg_block|]); apply Forall_nil_2.
Qed.
Lemma concat_elem q r l (a : list (list (rank * ev))) : l ∈ a -> (length (before r (rsends q l)) <= length (before r (concat (map (rsends q) a))))%nat.
Proof using. clear low uniq meet.
  induction a as [|x a IH]; [by intros ?%elem_of_nil|]. intros H. cbn [map concat]. rewrite before_app, app_length. apply elem_of_cons in H as [->|H]; [lia|]. specialize (IH H). lia.
Qed.

Lemma phases_complete : completes (party true n (ws true) ++ party false n (ws false)).
Proof using low uniq meet.
  rewrite <- p_scripts. apply ranked_completes. split.
  - intros i l H. apply pall_lookup in H as (p & [[_ ->]|(x & w & _ & _ & ->)]); [apply main_sorted|apply work_sorted].
  - intros i l r q j k H Hin. apply pall_lookup in H as (p & [[_ ->]|(x & w & _ & Hw & ->)]).
    { apply main_elem in Hin as (k' & _ & Hin). unfold mainB in Hin. parts Hin. }
    unfold workR, workB in Hin. parts Hin. apply gets_elem in Hin as (y & k' & [= -> -> ->] & Hy). cbn [Nat.add].
    assert (wGet w <> []) as Hg by (by destruct (wGet w)). apply elem_of_list_lookup_2 in Hw as Hw'.
    destruct (meet p w Hw' Hg) as (v & Hv & Hc & Hs & Hp). apply elem_of_list_lookup in Hv as [z Hv].
    do 3 eexists. split; [by apply (pall_work _ _ _ Hv)|]. split.
    + intros i' lv Hi' Hne. apply pall_lookup in Hi' as (p' & [[_ ->]|(x' & w' & -> & Hw2 & ->)]); [apply main_sends_c|].
      rewrite work_sends. destruct (Bool.eqb_spec (negb p) p') as [E|_]; [|done]. subst p'. destruct (Nat.eqb_spec (wCh w') (wCh w)) as [E|_]; [|done]. cbn [andb].
      destruct (wSend w') eqn:Ew; [done|]. exfalso. apply Hne. assert (x' = z) as ->; [|done].
      eapply uniq; [exact Hw2|exact Hv|congruence|congruence|congruence].
    + rewrite work_sends, Hc, Nat.eqb_refl, Bool.eqb_reflx. cbn [andb]. split; [apply nth_pair; by rewrite Hs|]. left. cbn. lia.
  - intros i l r q m H Hin. apply pall_lookup in H as (p & [[_ ->]|(x & w & _ & Hw & ->)]).
    + apply main_elem in Hin as (k & Hk & Hin). unfold mainB in Hin. parts Hin. injection Hin as -> -> ->.
      transitivity (length (before (5 * k + 4, 0)%nat (concat (map (rsends (Barrier p (endB k))) (partyR p)))))%nat.
      * unfold partyR. cbn [map concat]. rewrite before_app, app_length. etransitivity; [|apply Nat.le_add_l]. unfold count. clear.
        induction (ws p) as [|w l IH]; [done|]. cbn [List.filter map concat]. rewrite before_app, app_length. destruct (Nat.eqb_spec (phase w) k) as [E|_]; [|lia].
        cbn [length]. enough (1 <= length (before (5 * k + 4, 0)%nat (rsends (Barrier p (endB k)) (workR p w))))%nat by lia. subst k.
        eapply (arrives _ _ _ (5 * phase w + 3, 0)%nat); [|left; cbn; lia].
        eapply (flat_in _ 2); [reflexivity|]. rewrite lookup_app_r by (rewrite ?imap_length; done). rewrite Nat.sub_diag. reflexivity.
      * unfold pall. rewrite map_app, concat_app, before_app, app_length. destruct p; [apply Nat.le_add_r|apply Nat.le_add_l].
    + unfold workR, workB in Hin. parts Hin; [|by apply gets_elem in Hin as (? & ? & ? & _)]. injection Hin as -> ->.
      assert (1 <= length (before (5 * phase w + 1, 0)%nat (rsends (Barrier p (startB (phase w))) (mainR p))))%nat as H1.
      { eapply (arrives _ _ _ (5 * phase w, 0)%nat); [|left; cbn; lia]. apply (in_main _ (phase w)); [left|]. eapply low. by eapply elem_of_list_lookup_2. }
      etransitivity; [exact H1|]. apply concat_elem. unfold pall, partyR. destruct p; set_solver.
Qed.
End phases.
