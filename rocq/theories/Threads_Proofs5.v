(** Orders that depend on messages or on two barriers. *)
From stdpp Require Import sorting sets.
From Verif Require Import Base Partition_Model Sched_Model Sched_Spec Sched_Proofs Sched_Proofs2 Sched_Proofs3 Threads_Model Threads_Proofs Threads_Proofs2 Threads_Proofs3 Threads_Proofs4.

Lemma once (a rest pre post : list ev) e : a ++ e :: rest = pre ++ e :: post -> e ∉ pre -> e ∉ post -> a = pre /\ rest = post.
Proof.
  intros E H1 H2. apply app_eq_inv in E as [(k & -> & E)|(k & -> & E)].
  - destruct k as [|x k]; cbn in E; [by injection E as ->; rewrite app_nil_r|]. injection E as -> ->. exfalso. apply H2. apply elem_of_app. right. left.
  - destruct k as [|x k]; cbn in E; [by injection E as ->; rewrite app_nil_r|]. injection E as -> ->. exfalso. apply H1. apply elem_of_app. right. left.
Qed.
Lemma arrivals_but q (f : nat -> list ev) c s T : (forall t, length (sendsOf q (f t)) = if (t =? c)%nat then 0%nat else 1%nat) -> (s <= c < s + T)%nat ->
  length (concat (map (sendsOf q) (map f (seq s T)))) = (T - 1)%nat.
Proof.
  intros H. revert s. induction T as [|T IH]; intros s Hc; [lia|]. cbn [seq map concat]. rewrite app_length, H. destruct (Nat.eqb_spec s c) as [->|Hne].
  - assert (forall s n, (c < s)%nat -> length (concat (map (sendsOf q) (map f (seq s n)))) = n) as Hn; [|rewrite Hn; lia].
    clear -H. intros s n. revert s. induction n as [|n IH]; intros s Hs; [done|]. cbn [seq map concat]. rewrite app_length, H, IH by lia. destruct (Nat.eqb_spec s c); lia.
  - rewrite IH by lia. lia.
Qed.
Lemma map_lookup (f : nat -> list ev) T (adv : list (list ev)) u : (u < T)%nat -> (map f (seq 0 T) ++ adv) !! u = Some (f u).
Proof. intros H. rewrite lookup_app_l by (by rewrite map_length, seq_length). rewrite list_lookup_fmap, lookup_seq_lt by done. done. Qed.
Lemma map_lookup_inv (f : nat -> list ev) T (adv : list (list ev)) u l : (map f (seq 0 T) ++ adv) !! u = Some l -> (u < T)%nat /\ l = f u \/ (T <= u)%nat /\ adv !! (u - T)%nat = Some l.
Proof.
  intros H. apply lookup_app_Some in H as [H|[Hge H]]; rewrite ?map_length, ?seq_length in *; [|by right].
  left. apply list_lookup_fmap_inv in H as (t & -> & H). apply lookup_seq in H as [-> H]. done.
Qed.
Lemma elem_sends q (l : list ev) n : (n < length (sendsOf q l))%nat -> exists k, Snd q k ∈ l.
Proof. destruct (sendsOf q l) as [|k ks] eqn:E; cbn; [lia|]. intros _. exists k. apply sendsOf_elem. rewrite E. left. Qed.
Lemma no_sends q l k : sendsOf q l = [] -> Snd q k ∉ l.
Proof.
  intros H Hin. assert (k ∈ sendsOf q l) as Hk; [|rewrite H in Hk; by apply elem_of_nil in Hk].
  apply elem_of_list_omap. exists (Snd q k). split; [done|]. by rewrite decide_True.
Qed.

(** ** RR16: all masks are in the table before the first lookup *)

Section rr16.
Variable P : rr16.
Hypothesis first : (cFirst P < cT P)%nat.
Let cPerm (t : nat) : list ev := if (t =? 0)%nat then [Snd (Chan 0 false) (cBf P); Snd (Barrier false permB) 0] else [Wai (Barrier false permB) 1].
Lemma cReceiver_first : cReceiver P (cFirst P) = (Act Hashed :: barrier false barA (cT P) ++ cPerm (cFirst P) ++ [Wai (Barrier false barB) (cT P - 1); Act Inserted]) ++
  [Snd (Barrier false barC) 0; Get (Chan (cFirst P) true) 0 (cMasks P (cFirst P)); Act LookedUp; done false].
Proof. unfold cReceiver, cPerm, barrier. rewrite Nat.eqb_refl. destruct (cFirst P =? 0)%nat; done. Qed.
Lemma cReceiver_other t : t <> cFirst P -> cReceiver P t = (Act Hashed :: barrier false barA (cT P) ++ cPerm t ++ [Act Inserted]) ++
  Snd (Barrier false barB) 0 :: [Wai (Barrier false barC) 1; Get (Chan t true) 0 (cMasks P t); Act LookedUp; done false].
Proof. intros H. apply Nat.eqb_neq in H. unfold cReceiver, cPerm, barrier. rewrite H. destruct (t =? 0)%nat; done. Qed.
Lemma cReceiver_lookup t : exists pre, cReceiver P t = pre ++ Act LookedUp :: [done false] /\ Act LookedUp ∉ pre /\
  (if (t =? cFirst P)%nat then Wai (Barrier false barB) (cT P - 1) ∈ pre /\ Act Inserted ∉ [done false] else Wai (Barrier false barC) 1 ∈ pre).
Proof.
  destruct (Nat.eqb_spec t (cFirst P)) as [->|Hne].
  - rewrite cReceiver_first. exists ((Act Hashed :: barrier false barA (cT P) ++ cPerm (cFirst P) ++ [Wai (Barrier false barB) (cT P - 1); Act Inserted]) ++
      [Snd (Barrier false barC) 0; Get (Chan (cFirst P) true) 0 (cMasks P (cFirst P))]). unfold cPerm. destruct (cFirst P =? 0)%nat; split_and!; [done|set_solver|set_solver|set_solver|done|set_solver|set_solver|set_solver].
  - rewrite (cReceiver_other t Hne). exists ((Act Hashed :: barrier false barA (cT P) ++ cPerm t ++ [Act Inserted]) ++
      Snd (Barrier false barB) 0 :: [Wai (Barrier false barC) 1; Get (Chan t true) 0 (cMasks P t)]). unfold cPerm. destruct (t =? 0)%nat; split_and!; [done|set_solver|set_solver|done|set_solver|set_solver].
Qed.
Lemma rr16_merged adv : peer false adv -> always_before (map (cReceiver P) (seq 0 (cT P)) ++ adv) (among (cT P) isInsert) (among (cT P) isLookup).
Proof.
  intros Hadv. apply before_intro. intros tr s v f rest u e rest' Hex Hv [Hvt Hf] Hu Hin [Hut He]. cbn in Hvt, Hf, Hut, He. unfold isLookup in Hf. unfold isInsert in He. subst f e.
  set (scripts := map (cReceiver P) (seq 0 (cT P)) ++ adv) in *.
  assert (forall w, (w < cT P)%nat -> scripts !! w = Some (cReceiver P w)) as Hsc by (intros w Hw; by apply map_lookup).
  destruct (exec_thr _ _ _ _ _ Hex (Hsc v Hvt)) as (r & Hr & Ev). rewrite Hv in Hr. injection Hr as <-.
  destruct (exec_thr _ _ _ _ _ Hex (Hsc u Hut)) as (r & Hr & Eu). rewrite Hu in Hr. injection Hr as <-.
  destruct (exec_thr _ _ _ _ _ Hex (Hsc _ first)) as (rf & Hrf & Ef).
  destruct (cReceiver_lookup v) as (pre & Epre & Hpre & Hcase). rewrite Epre in Ev. symmetry in Ev. apply once in Ev as [Ev Erest]; [|done|set_solver].
  (* the merging thread has passed its wait and has no insertion left *)
  assert (Wai (Barrier false barB) (cT P - 1) ∈ thr (cFirst P) tr /\ Act Inserted ∉ rf) as [Hwait Hnot].
  { destruct (Nat.eqb_spec v (cFirst P)) as [->|Hne].
    - rewrite Hrf in Hv. injection Hv as ->. rewrite Ev. destruct Hcase as [Hc Hc']. split; [done|]. subst rest. set_solver.
    - rewrite <- Ev in Hcase. apply (executed _ _ _ _ _ Hex) in Hcase. cbn in Hcase.
      rewrite (sent_by _ _ _ _ (cFirst P) _ Hex (Hsc _ first)) in Hcase.
      2: { intros w lw Hw Hwne. apply map_lookup_inv in Hw as [[Hwt ->]|[_ Hw]].
           - rewrite (cReceiver_other w Hwne). unfold cPerm. destruct (w =? 0)%nat; done.
           - unfold peer in Hadv. rewrite Forall_forall in Hadv. apply sendsOf_none, Hadv. by eapply elem_of_list_lookup_2. }
      destruct (elem_sends _ _ 0 Hcase) as [k Hk]. rewrite cReceiver_first in Ef. symmetry in Ef.
      apply (beyond _ _ _ _ _ Ef) in Hk as (a' & Ea & Epost).
      + rewrite Ea. split; [set_solver|]. intros Hbad. assert (Act Inserted ∈ a' ++ rf) as Hbad' by set_solver. rewrite <- Epost in Hbad'. set_solver.
      + unfold cPerm. destruct (cFirst P =? 0)%nat; set_solver. }
  destruct (decide (u = cFirst P)) as [->|Hne].
  - rewrite Hrf in Hu. injection Hu as ->. done.
  - apply (executed _ _ _ _ _ Hex) in Hwait. cbn in Hwait.
    assert (length (concat (map (sendsOf (Barrier false barB)) scripts)) = (cT P - 1)%nat) as Hcount.
    { unfold scripts. rewrite map_app, concat_app, (arrivals_peer false barB adv Hadv), app_nil_r. apply (arrivals_but _ _ (cFirst P)); [|lia].
      intros t. destruct (Nat.eqb_spec t (cFirst P)) as [->|Hn]; [rewrite cReceiver_first|rewrite (cReceiver_other t Hn)]; unfold cPerm; [destruct (cFirst P =? 0)%nat|destruct (t =? 0)%nat]; done. }
    pose proof (all_arrived _ _ _ _ _ Hcount Hex Hwait u rest' Hu) as Hnone. rewrite (cReceiver_other u Hne) in Eu. symmetry in Eu.
    apply left_over in Eu as (a' & _ & Epost); [|by apply no_sends]. assert (Act Inserted ∈ a' ++ rest') as Hbad by set_solver. rewrite <- Epost in Hbad. set_solver.
Qed.
End rr16.

(** ** RR17b: the tags of all threads are in the table before the first lookup, by the messages between the parties *)

Lemma talk_said c d j m : length (sendsOf (Chan c d) (talk d c j m)) = heard (negb d) m.
Proof.
  revert j. induction m as [|[d' k] m IH]; intros j; [done|]. cbn [talk]. unfold heard. cbn. destruct d', d; cbn; rewrite ?sendsOf_snd, ?sendsOf_get, ?decide_True by done; cbn; try (f_equal; apply IH); apply IH.
Qed.
Lemma talk_get c d j m : (0 < heard d m)%nat -> exists j' k, Get (Chan c (negb d)) j' k ∈ talk d c j m.
Proof.
  revert j. induction m as [|[d' k] m IH]; intros j H; [cbn in H; lia|]. unfold heard in H. cbn in H. cbn [talk]. destruct (Bool.eqb d' d) eqn:E; cbn in H.
  - destruct (IH j H) as (j' & k' & Hin). exists j', k'. by right.
  - assert (d' = negb d) as -> by (by destruct d', d). exists j, k. left.
Qed.
Ltac clash := first [discriminate | congruence].
Section rr17b.
Variable P : rr17b.
Hypothesis answered : forall u, (u < bT P)%nat -> bCorrS P u <> [] \/ (0 < heard true (bChk P u))%nat.
Let preS (t : nat) : list ev := Act Inserted :: barrier true barA (bT P) ++ [Wai (Barrier true permB) 1] ++ gets (Chan t false) 0 (bCorrS P t) ++ talk true t (length (bCorrS P t)) (bChk P t) ++ [Act Checked].
Lemma bSender_split t : bSender P t = preS t ++ Snd (Barrier true barB) 0 :: Wai (Barrier true barB) (bT P) :: Act MasksSent :: sends (Chan t true) (bMasks P t) ++ [done true].
Proof. unfold bSender, preS, barrier. repeat first [progress cbn [app] | rewrite <- app_assoc]. done. Qed.
Let preR (t : nat) : list ev := barrier false barA (bT P) ++ [Act Inserted].
Let postR (t : nat) : list ev := sends (Chan t false) (bCorrR P t) ++ talk false t 0 (bChk P t) ++ looks P t ++ [done false].
Lemma bReceiver_split t : bReceiver P t = preR t ++ postR t.
Proof. unfold bReceiver, preR, postR, barrier. repeat first [progress cbn [app] | rewrite <- app_assoc]. done. Qed.
Lemma preS_sends t : length (sendsOf (Chan t true) (preS t)) = heard false (bChk P t).
Proof.
  unfold preS, barrier. repeat first [rewrite sendsOf_app | rewrite sendsOf_snd, decide_False by done | rewrite sendsOf_act | rewrite sendsOf_wai | rewrite sendsOf_gets | progress cbn [app]].
  rewrite !app_length, talk_said. cbn. lia.
Qed.
Lemma preS_get t : (t < bT P)%nat -> exists j k, Get (Chan t false) j k ∈ preS t.
Proof.
  intros Ht. destruct (answered t Ht) as [H|H].
  - destruct (bCorrS P t) as [|k ks] eqn:E; [done|]. exists 0%nat, k. unfold preS. rewrite E. set_solver.
  - destruct (talk_get t true (length (bCorrS P t)) _ H) as (j & k & Hin). exists j, k. unfold preS. set_solver.
Qed.
Lemma chan_sends t v d : v <> t -> sendsOf (Chan v d) (bSender P t) = [] /\ sendsOf (Chan v d) (bReceiver P t) = [].
Proof.
  intros Hne. split; apply sendsOf_none; intros k Hin; remember (Snd (Chan v d) k) as e eqn:Ee.
  - unfold bSender, barrier in Hin. cbn [app] in Hin. parts2 Hin; clash.
  - rewrite bReceiver_split in Hin. unfold preR, postR, barrier in Hin. cbn [app] in Hin. parts2 Hin; try clash. subst e. by apply looks_elem in Hin as [?|(? & ? & ? & _)].
Qed.
Lemma dir_sends t : sendsOf (Chan t false) (bSender P t) = [] /\ sendsOf (Chan t true) (bReceiver P t) = [].
Proof.
  split; apply sendsOf_none; intros k Hin; [remember (Snd (Chan t false) k) as e eqn:Ee|remember (Snd (Chan t true) k) as e eqn:Ee].
  - unfold bSender, barrier in Hin. cbn [app] in Hin. parts2 Hin; clash.
  - rewrite bReceiver_split in Hin. unfold preR, postR, barrier in Hin. cbn [app] in Hin. parts2 Hin; try clash. subst e. by apply looks_elem in Hin as [?|(? & ? & ? & _)].
Qed.
Lemma b_lookup i l : rr17bScripts P !! i = Some l ->
  (i < bT P)%nat /\ l = bSender P i \/ (exists t, (t < bT P)%nat /\ i = (bT P + t)%nat /\ l = bReceiver P t) \/ ((bT P + bT P <= i)%nat /\ l ∈ [permThread; senderMain (bT P); receiverMain (bT P)]).
Proof.
  unfold rr17bScripts. intros H. apply map_lookup_inv in H as [[? ->]|[Hge H]]; [by left|]. right. apply map_lookup_inv in H as [[? ->]|[Hge' H]].
  - left. exists (i - bT P)%nat. split_and!; [done|lia|done].
  - right. split; [lia|]. by eapply elem_of_list_lookup_2.
Qed.
Lemma b_S t : (t < bT P)%nat -> rr17bScripts P !! t = Some (bSender P t).
Proof. intros H. by apply map_lookup. Qed.
Lemma b_R t : (t < bT P)%nat -> rr17bScripts P !! (bT P + t)%nat = Some (bReceiver P t).
Proof.
  intros H. unfold rr17bScripts. rewrite lookup_app_r by (rewrite map_length, seq_length; lia). rewrite map_length, seq_length.
  replace (bT P + t - bT P)%nat with t by lia. by apply map_lookup.
Qed.
Lemma single q u lu : rr17bScripts P !! u = Some lu -> (exists t, (t < bT P)%nat /\ (q = Chan t true /\ u = t \/ q = Chan t false /\ u = (bT P + t)%nat)) ->
  forall v lv, rr17bScripts P !! v = Some lv -> v <> u -> sendsOf q lv = [].
Proof.
  intros Hu (t & Ht & Hq) v lv Hv Hne. apply b_lookup in Hv as [[Hlt ->]|[(t' & Ht' & -> & ->)|[_ Hx]]].
  - destruct Hq as [[-> ->]|[-> ->]]; [by apply chan_sends|]. destruct (decide (t = v)) as [->|]; [apply dir_sends|by apply chan_sends].
  - destruct Hq as [[-> ->]|[-> ->]]; [|apply chan_sends; lia]. destruct (decide (t = t')) as [->|]; [apply dir_sends|by apply chan_sends].
  - apply sendsOf_none. intros k Hin. unfold permThread, senderMain, receiverMain in Hx. remember (Snd q k) as e eqn:Ee. repeat (apply elem_of_cons in Hx as [->|Hx]); [parts2 Hin..|by apply elem_of_nil in Hx]; destruct Hq as [[-> _]|[-> _]]; clash.
Qed.
Lemma barB_count : length (concat (map (sendsOf (Barrier true barB)) (rr17bScripts P))) = bT P.
Proof.
  unfold rr17bScripts. rewrite !map_app, !concat_app, !app_length, (arrivals_T (Barrier true barB) (bSender P)).
  - assert (forall s n, concat (map (sendsOf (Barrier true barB)) (map (bReceiver P) (seq s n))) = []) as ->.
    2: { replace (concat (map (sendsOf (Barrier true barB)) [permThread; senderMain (bT P); receiverMain (bT P)])) with (@nil N) by reflexivity. cbn. lia. }
    intros s n. revert s. induction n as [|n IH]; intros s; [done|]. cbn [seq map concat]. rewrite IH, app_nil_r. apply sendsOf_none. intros k Hin. remember (Snd (Barrier true barB) k) as e eqn:Ee.
    rewrite bReceiver_split in Hin. unfold preR, postR, barrier in Hin. cbn [app] in Hin. parts2 Hin; try clash. subst e. by apply looks_elem in Hin as [?|(? & ? & ? & _)].
  - intros t. rewrite bSender_split. unfold preS, barrier. cbn [app].
    repeat first [rewrite sendsOf_app | rewrite sendsOf_snd | rewrite sendsOf_act | rewrite sendsOf_wai | rewrite sendsOf_gets | rewrite talk_sendsOf | rewrite sends_sendsOf | progress cbn [app]]. dec. done.
Qed.
Lemma rr17b_inserted : always_before (rr17bScripts P) (inThreads (bT P) (bT P) isInsert) (inThreads (bT P) (bT P) isLookup).
Proof.
  apply before_intro. intros tr s v f rest u e rest' Hex Hv [Hvt Hf] Hu Hin [Hut He]. cbn [fst snd] in Hvt, Hf, Hut, He. unfold isLookup in Hf. unfold isInsert in He. subst f e.
  assert (exists t, (t < bT P)%nat /\ v = (bT P + t)%nat) as (t & Ht & ->) by (exists (v - bT P)%nat; lia).
  assert (exists w, (w < bT P)%nat /\ u = (bT P + w)%nat) as (w & Hw & ->) by (exists (u - bT P)%nat; lia). clear Hvt Hut.
  (* the receive before the lookup *)
  destruct (exec_thr _ _ _ _ _ Hex (b_R t Ht)) as (r & Hr & Ev). rewrite Hv in Hr. injection Hr as <-.
  assert (exists k, Get (Chan t true) (heard false (bChk P t)) k ∈ thr (bT P + t) tr) as [k Hget].
  { rewrite bReceiver_split in Ev. unfold postR in Ev. rewrite (app_assoc _ _ (looks P t ++ _)), app_assoc in Ev. symmetry in Ev.
    assert (Act LookedUp ∉ preR t ++ sends (Chan t false) (bCorrR P t) ++ talk false t 0 (bChk P t)) as Hno.
    { intros Hbad. remember (Act LookedUp) as e eqn:Ee. unfold preR, barrier in Hbad. cbn [app] in Hbad. parts2 Hbad; clash. }
    assert (exists a', thr (bT P + t) tr = (preR t ++ sends (Chan t false) (bCorrR P t) ++ talk false t 0 (bChk P t)) ++ a' /\ looks P t ++ [done false] = a' ++ Act LookedUp :: rest) as (a' & Ea & Epost).
    { apply app_eq_inv in Ev as [(a' & -> & Ea)|(a' & E1 & E2)]; [by exists a'|]. destruct a' as [|x a']; [exists []; rewrite app_nil_r in E1 |- *; done|].
      cbn in E2. injection E2 as <- ->. exfalso. apply Hno. rewrite E1. set_solver. }
    unfold looks in Epost. destruct (bMasks P t) as [|k ks]; [cbn [imap concat app] in Epost|].
    - destruct a' as [|x a']; cbn in Epost; [done|]. injection Epost as _ Epost. by destruct a'.
    - rewrite imap_cons in Epost. cbn [concat app] in Epost. exists k. rewrite Ea. destruct a' as [|x a']; cbn in Epost; [done|]. injection Epost as <- _. rewrite Nat.add_0_r. set_solver. }
  apply (executed _ _ _ _ _ Hex) in Hget. cbn in Hget. apply lookup_lt_Some in Hget.
  rewrite (sent_by _ _ _ _ t _ Hex (b_S t Ht)) in Hget by (eapply single; [by apply b_S|exists t; eauto]).
  (* sent after the second barrier of the sender *)
  destruct (exec_thr _ _ _ _ _ Hex (b_S t Ht)) as (rs & Hrs & Es). rewrite bSender_split in Es.
  replace (preS t ++ Snd (Barrier true barB) 0 :: Wai (Barrier true barB) (bT P) :: Act MasksSent :: sends (Chan t true) (bMasks P t) ++ [done true])
    with ((preS t ++ [Snd (Barrier true barB) 0; Wai (Barrier true barB) (bT P)]) ++ Act MasksSent :: sends (Chan t true) (bMasks P t) ++ [done true]) in Es by (by rewrite <- app_assoc).
  symmetry in Es. apply (beyond_sends (Chan t true)) in Es as (a' & Ea & _).
  2: { rewrite sendsOf_app, app_length, preS_sends, sendsOf_snd, decide_False by done. cbn [sendsOf omap list_omap app length]. cbn. lia. }
  assert (Wai (Barrier true barB) (bT P) ∈ thr t tr) as Hwai by (rewrite Ea; set_solver).
  apply (executed _ _ _ _ _ Hex) in Hwai. cbn in Hwai.
  (* so the sender's thread [w] has received something *)
  destruct (exec_thr _ _ _ _ _ Hex (b_S w Hw)) as (rw & Hrw & Ew). pose proof (all_arrived _ _ _ _ _ barB_count Hex Hwai w rw Hrw) as Hnone.
  rewrite bSender_split in Ew. symmetry in Ew. apply left_over in Ew as (aw & Ew & _); [|by apply no_sends].
  destruct (preS_get w Hw) as (j & k' & Hg). assert (Get (Chan w false) j k' ∈ thr w tr) as Hg' by (rewrite Ew; set_solver).
  apply (executed _ _ _ _ _ Hex) in Hg'. cbn in Hg'. apply lookup_lt_Some in Hg'.
  rewrite (sent_by _ _ _ _ (bT P + w) _ Hex (b_R w Hw)) in Hg' by (eapply single; [by apply b_R|exists w; eauto]).
  destruct (elem_sends _ _ _ Hg') as [k'' Hk].
  (* which the receiver's thread [w] sent after its insertions *)
  destruct (exec_thr _ _ _ _ _ Hex (b_R w Hw)) as (r & Hr & Eu). rewrite Hu in Hr. injection Hr as <-. rewrite bReceiver_split in Eu. symmetry in Eu.
  apply (beyond _ _ _ _ _ Eu) in Hk as (au & _ & Epost).
  2: { unfold preR, barrier. set_solver. }
  assert (Act Inserted ∈ au ++ rest') as Hbad by set_solver. rewrite <- Epost in Hbad. remember (Act Inserted) as e eqn:Ee. unfold postR in Hbad. parts2 Hbad; try clash.
  subst e. by apply looks_elem in Hbad as [?|(? & ? & ? & _)].
Qed.
End rr17b.
