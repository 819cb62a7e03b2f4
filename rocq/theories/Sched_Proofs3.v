(** Facts about the state before an event, for orders that go over several messages. *)
From stdpp Require Import sorting sets.
From Verif Require Import Base Sched_Model Sched_Spec Sched_Proofs Sched_Proofs2.

Lemma exec_app_inv s t1 t2 s' : exec s (t1 ++ t2) s' -> exists s1, exec s t1 s1 /\ exec s1 t2 s'.
Proof.
  revert s'. induction t2 as [|x t2 IH] using rev_ind; intros s' H.
  - rewrite app_nil_r in H. exists s'. split; [done|constructor].
  - rewrite app_assoc in H. apply exec_snoc_inv in H as (s1 & H & Hs). apply IH in H as (s2 & H2 & H3). exists s2. split; [done|]. by econstructor.
Qed.
Lemma exec_todo_length scripts tr s : exec (start scripts) tr s -> length (todo s) = length scripts.
Proof.
  intros H. remember (start scripts) as s0 eqn:E. induction H as [|? ? ? ? ? _ IH Hs]; subst; [done|]. rewrite <- (IH eq_refl). inversion Hs; subst. cbn. apply insert_length.
Qed.
Lemma exec_log scripts tr s : exec (start scripts) tr s -> sentLog s = omap (fun le : nat * ev => match le.2 with Snd q k => Some (q, k) | _ => None end) tr.
Proof.
  intros H. remember (start scripts) as s0 eqn:E. induction H as [s0|s0 t s' l s'' H IH Hs]; [by rewrite E|].
  rewrite omap_app, <- (IH E). destruct Hs as [s' k e r _ _]. cbn. destruct e; cbn; [done|by rewrite app_nil_r..].
Qed.
Lemma enabled_mono l l' e : enabled l e -> enabled (l ++ l') e.
Proof.
  destruct e as [| |q n|]; cbn; try done.
  - rewrite sentOn_app. apply lookup_app_l_Some.
  - rewrite sentOn_app, app_length. lia.
Qed.
(** What a thread has done was possible. *)
Lemma executed scripts tr s v e : exec (start scripts) tr s -> e ∈ thr v tr -> enabled (sentLog s) e.
Proof.
  intros H Hin. apply thr_elem, elem_of_list_lookup in Hin as [i Hi]. destruct (exec_at _ _ _ _ _ H Hi) as (s1 & s2 & H1 & Hs).
  apply step_inv in Hs as (rest & _ & Hen). rewrite (exec_log _ _ _ H), <- (take_drop i tr), omap_app, <- (exec_log _ _ _ H1). by apply enabled_mono.
Qed.
Lemma plain_lookup scripts u l : scripts !! u = Some l -> plain scripts !! u = Some (map (pair (0, 0)%nat) l).
Proof. intros H. unfold plain. by rewrite list_lookup_fmap, H. Qed.
(** A queue on which only thread [u] sends. *)
Lemma sent_by scripts tr s q u lu : exec (start scripts) tr s -> scripts !! u = Some lu -> (forall v lv, scripts !! v = Some lv -> v <> u -> sendsOf q lv = []) ->
  sentOn q (sentLog s) = sendsOf q (thr u tr).
Proof.
  intros H Hu Hone. rewrite (exec_log _ _ _ H).
  assert (forall v e, (v, e) ∈ tr -> v <> u -> forall k, e <> Snd q k) as Hno.
  { intros v e Hin Hne k ->. apply elem_of_list_lookup in Hin as [i Hi]. destruct (exec_at _ _ _ _ _ H Hi) as (s1 & s2 & H1 & Hs). apply step_inv in Hs as (rest & Ht & _).
    destruct (scripts !! v) as [lv|] eqn:Hv.
    - destruct (exec_thr _ _ _ _ _ H1 Hv) as (rest' & Ht' & ->). rewrite Ht in Ht'. injection Ht' as <-. specialize (Hone v _ Hv Hne).
      unfold sendsOf in Hone. rewrite omap_app in Hone. apply app_eq_nil in Hone as [_ Hone]. cbn in Hone. by rewrite decide_True in Hone.
    - apply lookup_ge_None in Hv. apply lookup_lt_Some in Ht. rewrite (exec_todo_length _ _ _ H1) in Ht. lia. }
  clear H. induction tr as [|[v e] tr IH]; [done|].
  assert (sentOn q (omap (λ le : nat * ev, match le.2 with Snd q0 k => Some (q0, k) | _ => None end) tr) = sendsOf q (thr u tr)) as IH' by (apply IH; intros v' e' Hin; apply Hno; by right).
  unfold thr, sendsOf, sentOn in *. cbn. destruct (decide (v = u)) as [->|Hne].
  - destruct e as [q' k| | |]; cbn; try exact IH'. destruct (decide (q' = q)); cbn; [|exact IH']. f_equal. exact IH'.
  - destruct e as [q' k| | |]; cbn; try exact IH'. rewrite decide_False; [exact IH'|]. intros ->. eapply (Hno v _ (elem_of_list_here _ _) Hne k). done.
Qed.
(** An order follows from the states in which the second event is next. *)
Lemma before_intro scripts (P Q : nat * ev -> Prop) :
  (forall tr s v f rest u e rest', exec (start scripts) tr s -> todo s !! v = Some (f :: rest) -> Q (v, f) -> todo s !! u = Some rest' -> e ∈ rest' -> ~ P (u, e)) ->
  always_before scripts P Q.
Proof.
  intros H tr s i j [u e] [v f] He Hi HP Hj HQ. destruct (decide (i < j)%nat) as [|Hge]; [done|]. exfalso.
  destruct (exec_at _ _ _ _ _ He Hj) as (sj & sj' & Hej & Hsj). apply step_inv in Hsj as (rest & Htv & _).
  destruct (exec_at _ _ _ _ _ He Hi) as (si & si' & Hei & Hsi). apply step_inv in Hsi as (resti & Htu & _).
  destruct (scripts !! u) as [lu|] eqn:Hlu.
  2: { apply lookup_ge_None in Hlu. apply lookup_lt_Some in Htu. rewrite (exec_todo_length _ _ _ Hei) in Htu. lia. }
  destruct (exec_thr _ _ _ _ _ Hej Hlu) as (rest' & Hr' & E1). destruct (exec_thr _ _ _ _ _ Hei Hlu) as (rest'' & Hr'' & E2).
  rewrite Htu in Hr''. injection Hr'' as <-. eapply (H _ _ v f rest u e rest' Hej Htv HQ Hr'); [|exact HP].
  rewrite <- (take_drop j (take i tr)), take_take, Nat.min_l, thr_app in E2 by lia. rewrite E1 in E2. rewrite <- app_assoc in E2. apply app_inv_head in E2 as ->.
  apply elem_of_app. right. left.
Qed.
(** A thread that has done something beyond [pre] has done [pre]. *)
Lemma beyond (a rest pre post : list ev) e : a ++ rest = pre ++ post -> e ∈ a -> e ∉ pre -> exists a', a = pre ++ a' /\ post = a' ++ rest.
Proof.
  intros E Ha Hpre. apply app_eq_inv in E as [(k & -> & ->)|(k & E1 & E2)]; [by exists k|].
  exfalso. apply Hpre. rewrite E1. apply elem_of_app. by left.
Qed.
Lemma beyond_sends q (a rest pre post : list ev) : a ++ rest = pre ++ post -> (length (sendsOf q pre) < length (sendsOf q a))%nat -> exists a', a = pre ++ a' /\ post = a' ++ rest.
Proof.
  intros E Ha. apply app_eq_inv in E as [(k & -> & ->)|(k & E1 & E2)]; [by exists k|].
  exfalso. rewrite E1 in Ha. unfold sendsOf in Ha. rewrite omap_app, app_length in Ha. lia.
Qed.
(** A thread that has nothing of [pre] left. *)
Lemma left_over (a rest pre post : list ev) e : a ++ rest = pre ++ e :: post -> e ∉ rest -> exists a', a = pre ++ e :: a' /\ post = a' ++ rest.
Proof.
  intros E Hr. assert (a ++ rest = (pre ++ [e]) ++ post) as E' by (by rewrite <- app_assoc). apply app_eq_inv in E' as [(k & -> & ->)|(k & E1 & E2)]; [exists k; by rewrite <- app_assoc|].
  - destruct k as [|x k].
    + rewrite app_nil_r in E1. subst a. exists []. cbn in E2. by subst rest.
    + exfalso. apply Hr. rewrite E2. apply elem_of_app. left. assert (last (pre ++ [e]) = last (a ++ x :: k)) as Hl by (by rewrite E1).
      rewrite last_snoc in Hl. assert (e ∈ x :: k) as Hin; [|done]. rewrite last_app in Hl.
      destruct (last (x :: k)) as [y|] eqn:Hy; [|by apply last_None in Hy]. injection Hl as ->. apply last_Some_elem_of in Hy. done.
Qed.
