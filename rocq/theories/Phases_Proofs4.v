(** Phases do not overlap. *)
From stdpp Require Import sorting sets.
From Verif Require Import Base Partition_Model Sched_Model Sched_Spec Sched_Proofs Sched_Proofs2 Sched_Proofs3 Threads_Model Threads_Proofs Threads_Proofs2 Threads_Proofs4 Kkrt_Model Phases_Model Phases_Spec Phases_Proofs2 Phases_Proofs3.

Definition pairAt (p : bool) (ws : list work) (k : nat) : list ev := [Snd (Barrier p (startB k)) 0; Wai (Barrier p (endB k)) (count ws k)].
Lemma main_at p ws n : forall s x e, concat (map (pairAt p ws) (seq s n)) !! x = Some e ->
  exists m, (m < n)%nat /\ (x = (2 * m)%nat /\ e = Snd (Barrier p (startB (s + m))) 0 \/ x = S (2 * m) /\ e = Wai (Barrier p (endB (s + m))) (count ws (s + m))).
Proof.
  induction n as [|n IH]; intros s x e H; [done|]. cbn [seq map concat pairAt app] in H. destruct x as [|[|x]]; cbn in H.
  - exists 0%nat. rewrite Nat.add_0_r. injection H as <-. split; [lia|]. by left.
  - exists 0%nat. rewrite Nat.add_0_r. injection H as <-. split; [lia|]. by right.
  - apply IH in H as (m & Hm & H). exists (S m). split; [lia|]. replace (s + S m)%nat with (S s + m)%nat by lia. destruct H as [[-> ->]|[-> ->]]; [left|right]; split; done || lia.
Qed.
Lemma main_wait p ws n : forall s m, (m < n)%nat -> concat (map (pairAt p ws) (seq s n)) !! S (2 * m) = Some (Wai (Barrier p (endB (s + m))) (count ws (s + m))).
Proof.
  induction n as [|n IH]; intros s m Hm; [lia|]. cbn [seq map concat pairAt app]. destruct m as [|m].
  - by rewrite Nat.add_0_r.
  - replace (S (2 * S m)) with (S (S (S (2 * m)))) by lia. cbn [lookup list_lookup]. specialize (IH (S s) m ltac:(lia)). replace (s + S m)%nat with (S s + m)%nat by lia. exact IH.
Qed.
Lemma main_arrivals p ws n k : sendsOf (Barrier p (endB k)) (mainOf p n ws) = [].
Proof.
  unfold mainOf. induction (seq 0 n) as [|m l IH]; [done|]. cbn [map concat]. rewrite sendsOf_app, IH, sendsOf_snd, sendsOf_wai, decide_False; [done|].
  intros [= E]. unfold startB, endB in E. lia.
Qed.
Lemma work_arrivals p w k : sendsOf (Barrier p (endB k)) (worker p w) = if (phase w =? k)%nat then [0] else [].
Proof.
  unfold worker. rewrite !sendsOf_app, sendsOf_wai, sendsOf_nil, sends_sendsOf, sendsOf_gets, sendsOf_snd, sendsOf_nil. cbn [app]. rewrite app_nil_r.
  destruct (Nat.eqb_spec (phase w) k) as [->|Hne]; [by rewrite decide_True|]. rewrite decide_False; [done|]. intros [= E]. unfold endB in E. lia.
Qed.

Lemma phases_order p n ws adv k k' : peer p adv -> (k < k')%nat -> always_before (party p n ws ++ adv) (inPhase ws k) (inPhase ws k').
Proof.
  intros Hadv Hk tr s i j [u e] [v f] He Hi HP Hj HQ.
  assert (always_before (party p n ws ++ adv) (inPhase ws k) (fun le => exists c, le.2 = Snd (Barrier p (startB k')) c)) as Hfirst.
  { clear -Hadv Hk. apply (barrier_order _ (Barrier p (endB k)) (count ws k)).
    - rewrite map_app, concat_app, (arrivals_peer p _ adv Hadv), app_nil_r. unfold party. cbn [map concat]. rewrite main_arrivals. cbn [app]. rewrite map_map. unfold count.
      induction ws as [|w l IH]; [done|]. cbn [map concat List.filter]. rewrite app_length, IH, work_arrivals. by destruct (phase w =? k)%nat.
    - intros u l x e Hl Hx (y & w & Hu & Hw & Hph & He). cbn [fst snd] in Hu, He. subst u. 
      assert (l = worker p w) as ->.
      { apply lookup_app_Some in Hl as [Hl|[Hge _]].
        - unfold party in Hl. change (map (worker p) ws !! y = Some l) in Hl. rewrite list_lookup_fmap, Hw in Hl. by injection Hl as <-.
        - unfold party in Hge. cbn [length] in Hge. rewrite map_length in Hge. apply lookup_lt_Some in Hw. lia. }
      subst k. unfold worker in Hx |- *. rewrite !app_assoc in Hx. apply lookup_app_Some in Hx as [Hx|[_ Hx]].
      + rewrite !app_assoc. eexists _, 0. split; [by eapply lookup_lt_Some|]. rewrite lookup_app_r by done. by rewrite Nat.sub_diag.
      + apply elem_of_list_lookup_2, elem_of_list_singleton in Hx as ->. by destruct He as [(? & ? & ? & ?)|(? & ? & ? & ? & ?)].
    - intros v l x f Hl Hx [c Hf]. cbn in Hf. subst f. apply lookup_app_Some in Hl as [Hl|[_ Hl]].
      + unfold party in Hl. destruct v as [|v].
        * injection Hl as <-. change (mainOf p n ws) with (concat (map (pairAt p ws) (seq 0 n))) in Hx |- *.
          apply main_at in Hx as (m & Hm & [[-> E]|[_ E]]); [|done]. injection E as E _. assert (m = k') as -> by (unfold startB in E; lia).
          exists (S (2 * k)). split; [lia|]. change (endB k) with (endB (0 + k)). change (count ws k) with (count ws (0 + k)). apply main_wait. lia.
        * exfalso. change (map (worker p) ws !! v = Some l) in Hl. apply list_lookup_fmap_inv in Hl as (w & -> & _). apply elem_of_list_lookup_2 in Hx. unfold worker in Hx.
          apply elem_of_app in Hx as [Hx|Hx]; [by apply elem_of_list_singleton in Hx|]. apply elem_of_app in Hx as [Hx|Hx]; [by apply sends_elem in Hx as (? & ?)|].
          apply elem_of_app in Hx as [Hx|Hx]; [by apply gets_elem in Hx as (? & ? & ? & _)|]. apply elem_of_list_singleton in Hx. injection Hx as E _. unfold startB, endB in E. lia.
      + exfalso. unfold peer in Hadv. rewrite Forall_lookup in Hadv. eapply (Hadv _ _ Hl). by eapply elem_of_list_lookup_2. }
  destruct HQ as (y & w & Hv & Hw & Hph & Hf). cbn [fst snd] in Hv, Hf. subst v k'.
  destruct (exec_at _ _ _ _ _ He Hj) as (sj & sj' & Hej & Hsj). apply step_inv in Hsj as (rest & Htv & _).
  assert ((party p n ws ++ adv) !! S y = Some (worker p w)) as Hl.
  { apply lookup_app_l_Some. unfold party. change (map (worker p) ws !! y = Some (worker p w)). by rewrite list_lookup_fmap, Hw. }
  destruct (exec_thr _ _ _ _ _ Hej Hl) as (rest' & Hr & E). rewrite Htv in Hr. injection Hr as <-.
  assert (Wai (Barrier p (startB (phase w))) 1 ∈ thr (S y) (take j tr)) as Hin.
  { destruct (thr (S y) (take j tr)) as [|a b]; unfold worker in E; cbn [app] in E; injection E as <- _.
    - exfalso. by destruct Hf as [(? & ? & ? & ?)|(? & ? & ? & ? & ?)].
    - left. }
  apply (executed _ _ _ _ _ Hej) in Hin. unfold enabled in Hin. rewrite (exec_log _ _ _ Hej) in Hin.
  assert (exists m u0 c, take j tr !! m = Some (u0, Snd (Barrier p (startB (phase w))) c)) as (m & u0 & c & Hm).
  { clear -Hin. generalize dependent (startB (phase w)). intros b Hin. induction (take j tr) as [|[u0 e0] l IH]; [by cbn in Hin; lia|]. destruct e0 as [q c|q c c'|q c|a]; cbn in Hin; try (destruct (IH Hin) as (m & u1 & c1 & Hm); by exists (S m), u1, c1).
    destruct (decide (q = Barrier p b)) as [->|Hne]; [by exists 0%nat, u0, c|]. try rewrite decide_False in Hin by done. destruct (IH Hin) as (m & u1 & c1 & Hm). by exists (S m), u1, c1. }
  assert (m < j)%nat as Hmj.
  { apply lookup_lt_Some in Hm. rewrite take_length in Hm. lia. }
  rewrite lookup_take in Hm by done. assert (i < m)%nat; [|lia]. eapply (Hfirst tr s i m _ _ He Hi HP Hm). by exists c.
Qed.
