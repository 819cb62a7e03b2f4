(** Order of events enforced by a barrier. *)
From stdpp Require Import sorting sets.
From Verif Require Import Base Sched_Model Sched_Spec Sched_Proofs.

(** The events of thread [i] in a trace. *)
Definition thr (i : nat) (tr : list (nat * ev)) : list ev := omap (fun le => if decide (le.1 = i) then Some le.2 else None) tr.
Lemma thr_app i t1 t2 : thr i (t1 ++ t2) = thr i t1 ++ thr i t2.
Proof. apply omap_app. Qed.

Lemma exec_snoc_inv s tr l s2 : exec s (tr ++ [l]) s2 -> exists s1, exec s tr s1 /\ step s1 l s2.
Proof.
  intros H. remember (tr ++ [l]) as t eqn:E. destruct H as [s|s t s1 l' s2 H1 H2]; [by destruct tr|].
  apply app_inj_tail in E as [-> ->]. eauto.
Qed.
Lemma exec_prefix s t1 t2 s' : exec s (t1 ++ t2) s' -> exists s1, exec s t1 s1.
Proof.
  revert s'. induction t2 as [|x t2 IH] using rev_ind; intros s' H.
  - rewrite app_nil_r in H. eauto.
  - rewrite app_assoc in H. apply exec_snoc_inv in H as (s1 & H & _). by apply IH in H.
Qed.
Lemma exec_at s tr s' i le : exec s tr s' -> tr !! i = Some le -> exists s1 s2, exec s (take i tr) s1 /\ step s1 le s2.
Proof.
  intros H Hi. rewrite <- (take_drop_middle _ _ _ Hi) in H. rewrite cons_middle, app_assoc in H. apply exec_prefix in H as [s2 H].
  apply exec_snoc_inv in H as (s1 & H1 & H2). eauto.
Qed.
Lemma exec_thr scripts tr s i l : exec (start scripts) tr s -> scripts !! i = Some l -> exists rest, todo s !! i = Some rest /\ l = thr i tr ++ rest.
Proof.
  intros H Hl. remember (start scripts) as s0 eqn:E. induction H as [|s0 tr s' lb s'' H IH Hs]; subst.
  - by exists l.
  - destruct (IH eq_refl) as (rest & Hr & ->). destruct Hs as [s' k e r Ht _]. cbn [todo]. rewrite thr_app.
    destruct (decide (k = i)) as [->|Hne].
    + rewrite Ht in Hr. injection Hr as <-. exists r. split; [by apply list_lookup_insert, lookup_lt_Some with (e :: r)|].
      unfold thr at 3. cbn. rewrite decide_True by done. by rewrite <- app_assoc.
    + exists rest. rewrite list_lookup_insert_ne by done. split; [done|]. unfold thr at 3. cbn. rewrite decide_False by done. cbn. by rewrite app_nil_r.
Qed.

(** All events of a script on which nothing depends yet, ranked equally. *)
Definition plain (scripts : list (list ev)) : list (list (rank * ev)) := map (map (pair (0, 0)%nat)) scripts.
Lemma plain_evs scripts : map evs (plain scripts) = scripts.
Proof.
  unfold plain, evs. rewrite map_map. rewrite <- (map_id scripts) at 2. apply map_ext. intros l. rewrite map_map. cbn. apply map_id.
Qed.
Lemma rsends_plain q l : length (rsends q (map (pair (0, 0)%nat) l)) = length (sendsOf q l).
Proof.
  unfold rsends, sendsOf. induction l as [|e l IH]; [done|]. cbn. destruct e as [q' k| | |]; cbn; try exact IH.
  destruct (decide (q' = q)); cbn; [|exact IH]. f_equal. exact IH.
Qed.

Lemma split_prefixes q a c : length (concat (map (rsends q) a)) =
  (length (concat (map (rsends q) (prefixes a c))) + length (concat (map (rsends q) (imap (fun i l => drop (c i) l) a))))%nat.
Proof.
  unfold prefixes. revert c. induction a as [|l a IH]; intros c; [done|]. rewrite !imap_cons. cbn [map concat]. rewrite !app_length, (IH (fun x => c (S x))).
  rewrite <- (take_drop (c 0%nat) l) at 1. rewrite rsends_app, app_length.
  assert (imap ((fun i l => take (c i) l) ∘ S) a = imap (fun (i : nat) (l : list (rank * ev)) => take (c (S i)) l) a) as -> by (apply imap_ext; intros; done).
  assert (imap ((fun i l => drop (c i) l) ∘ S) a = imap (fun (i : nat) (l : list (rank * ev)) => drop (c (S i)) l) a) as -> by (apply imap_ext; intros; done).
  lia.
Qed.
Lemma concat_nil {A} (ls : list (list A)) : length (concat ls) = 0%nat -> forall i l, ls !! i = Some l -> l = [].
Proof.
  induction ls as [|x ls IH]; intros H i l Hl; [done|]. cbn in H. rewrite app_length in H. destruct i as [|i]; cbn in Hl.
  - injection Hl as ->. apply nil_length_inv. lia.
  - apply (IH ltac:(lia) i l Hl).
Qed.

(** When all arrivals at [q] have happened, no thread has one left. *)
Lemma all_arrived scripts q n tr s : length (concat (map (sendsOf q) scripts)) = n -> exec (start scripts) tr s -> (n <= length (sentOn q (sentLog s)))%nat ->
  forall u rest, todo s !! u = Some rest -> sendsOf q rest = [].
Proof.
  intros Hn He Hle u rest Hu. rewrite <- (plain_evs scripts) in He. destruct (inv_exec _ _ _ He) as (c & Hlen & Htodo & Hcount & _).
  rewrite Hcount in Hle.
  assert (length (concat (map (rsends q) (plain scripts))) = n) as Hn'.
  { rewrite <- Hn. unfold plain. clear. induction scripts as [|l ls IH]; [done|]. cbn. rewrite !app_length, rsends_plain. f_equal. exact IH. }
  pose proof (split_prefixes q (plain scripts) c) as Hsp.
  assert (u < length (plain scripts))%nat as Hul by (rewrite <- Hlen; by apply lookup_lt_Some in Hu).
  apply lookup_lt_is_Some in Hul as [lu Hlu]. pose proof (Htodo u lu Hlu) as H. rewrite Hu in H. injection H as ->.
  pose proof (concat_nil (map (rsends q) (imap (fun i l => drop (c i) l) (plain scripts))) ltac:(lia) u (rsends q (drop (c u) lu))) as Hnil.
  rewrite list_lookup_fmap, list_lookup_imap, Hlu in Hnil. specialize (Hnil eq_refl).
  apply nil_length_inv. apply (f_equal length) in Hnil. cbn in Hnil. rewrite <- Hnil. clear.
  unfold sendsOf, rsends, evs. generalize (drop (c u) lu). intros l. induction l as [|[r e] l IH]; [done|]. cbn. destruct e as [q' k| | |]; cbn; try exact IH.
  destruct (decide (q' = q)); cbn; [|exact IH]. f_equal. exact IH.
Qed.

Lemma thr_elem i tr e : e ∈ thr i tr -> (i, e) ∈ tr.
Proof.
  intros H. apply elem_of_list_omap in H as [[i' e'] [H He]]. cbn in He. destruct (decide (i' = i)) as [->|]; [|done]. by injection He as ->.
Qed.
Lemma sent_mono tr s0 s i s1 q : exec s0 tr s -> exec s0 (take i tr) s1 -> s0 = start (todo s0) -> (length (sentOn q (sentLog s1)) <= length (sentOn q (sentLog s)))%nat.
Proof.
  intros H H1 E. assert (forall t s', exec s0 t s' -> sentLog s' = omap (fun le : nat * ev => match le.2 with Snd q k => Some (q, k) | _ => None end) t) as HL.
  { clear -E. intros t s' H. induction H as [s0|s0 t s' l s'' H IH Hs].
    - by rewrite E.
    - rewrite omap_app, <- (IH E). destruct Hs as [s' k e r _ _]. cbn. destruct e; cbn; [done|by rewrite app_nil_r..]. }
  rewrite (HL _ _ H), (HL _ _ H1). rewrite <- (take_drop i tr) at 2. rewrite omap_app, sentOn_app, app_length. lia.
Qed.

Lemma step_inv s i e s' : step s (i, e) s' -> exists rest, todo s !! i = Some (e :: rest) /\ enabled (sentLog s) e.
Proof. intros H. inversion H; subst. eauto. Qed.
(** Everything before an arrival happens before everything after the wait for all arrivals. *)
Theorem barrier_order scripts q n (P Q : nat * ev -> Prop) :
  length (concat (map (sendsOf q) scripts)) = n ->
  (forall u l x e, scripts !! u = Some l -> l !! x = Some e -> P (u, e) -> exists y k, (x < y)%nat /\ l !! y = Some (Snd q k)) ->
  (forall v l x f, scripts !! v = Some l -> l !! x = Some f -> Q (v, f) -> exists y, (y < x)%nat /\ l !! y = Some (Wai q n)) ->
  always_before scripts P Q.
Proof.
  intros Hn HP HQ tr s i j [u e] [v f] He Hi HPe Hj HQf.
  destruct (decide (i < j)%nat) as [|Hge]; [done|]. exfalso. assert (j <= i)%nat as Hji by lia. clear Hge.
  destruct (exec_at _ _ _ _ _ He Hj) as (sj & sj' & Hej & Hsj). destruct (exec_at _ _ _ _ _ He Hi) as (si & si' & Hei & Hsi).
  apply step_inv in Hsj as (restv & Htv & _). apply step_inv in Hsi as (restu & Htu & _).
  assert (forall t s' w r, exec (start scripts) t s' -> todo s' !! w = Some r -> exists l, scripts !! w = Some l /\ l = thr w t ++ r) as Hsplit.
  { intros t s' w r Ht Hr. destruct (scripts !! w) as [l|] eqn:Hl.
    - exists l. split; [done|]. destruct (exec_thr _ _ _ _ _ Ht Hl) as (r' & Hr' & ->). rewrite Hr in Hr'. by injection Hr' as ->.
    - exfalso. assert (length (todo s') = length scripts) as Hlen.
      { clear -Ht. remember (start scripts) as s0 eqn:E. induction Ht as [|? ? ? ? ? _ IH Hs]; subst; [done|]. rewrite <- (IH eq_refl). inversion Hs; subst. cbn. apply insert_length. }
      apply lookup_ge_None in Hl. apply lookup_lt_Some in Hr. lia. }
  destruct (Hsplit _ _ _ _ Hej Htv) as (lv & Hlv & Elv). destruct (Hsplit _ _ _ _ Hei Htu) as (lu & Hlu & Elu).
  destruct (HQ v lv (length (thr v (take j tr))) f Hlv) as (y & Hy & Hw); [|done|].
  { rewrite Elv, lookup_app_r, Nat.sub_diag by lia. done. }
  rewrite Elv, lookup_app_l in Hw by done. apply elem_of_list_lookup_2, thr_elem, elem_of_list_lookup in Hw as [jw Hjw].
  pose proof (lookup_lt_Some _ _ _ Hjw) as Hjwlt. rewrite take_length in Hjwlt. rewrite lookup_take in Hjw by lia.
  destruct (exec_at _ _ _ _ _ He Hjw) as (sw & sw' & Hew & Hsw). apply step_inv in Hsw as (restw & Htw & Hen). cbn in Hen.
  assert (n <= length (sentOn q (sentLog sj)))%nat as Hall.
  { etrans; [exact Hen|]. apply (sent_mono (take j tr) (start scripts) sj jw sw q Hej); [|done]. rewrite take_take, Nat.min_l by lia. done. }
  (* what thread [u] has left at time [j] contains an arrival *)
  destruct (exec_thr _ _ _ _ _ Hej Hlu) as (rest & Hrest & Elu').
  pose proof (all_arrived scripts q n _ _ Hn Hej Hall u rest Hrest) as Hnone.
  destruct (HP u lu (length (thr u (take i tr))) e Hlu) as (z & k & Hz & Hs); [|done|].
  { rewrite Elu, lookup_app_r, Nat.sub_diag by lia. done. }
  assert (length (thr u (take j tr)) <= length (thr u (take i tr)))%nat as Hlen.
  { rewrite <- (take_drop j (take i tr)) , take_take, Nat.min_l, thr_app, app_length by lia. lia. }
  rewrite Elu', lookup_app_r in Hs by lia.
  assert (k ∈ sendsOf q rest) as Hin.
  { apply elem_of_list_omap. exists (Snd q k). split; [by eapply elem_of_list_lookup_2|]. by rewrite decide_True. }
  rewrite Hnone in Hin. by apply elem_of_nil in Hin.
Qed.
