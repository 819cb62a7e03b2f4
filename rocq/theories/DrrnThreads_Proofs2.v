From stdpp Require Import sets.
From Verif Require Import Base Drrn_Model Sched_Model Sched_Spec Threads_Model DrrnThreads_Model Sched_Proofs Sched_Proofs2 Sched_Proofs3 Threads_Proofs Threads_Proofs2 Threads_Proofs4 Threads_Proofs5 DrrnThreads_Proofs.

(** ** The main thread waits for the others *)

Lemma main_waits p b (f : nat -> list ev) T adv pre mid post (W : nat -> list ev) : peer p adv ->
  f 0%nat = (pre ++ Wai (Barrier p b) (T - 1) :: mid) ++ Act MasksSent :: post -> (forall t, f (S t) = W t ++ [Snd (Barrier p b) 0]) ->
  (Act MasksSent ∉ pre /\ Act MasksSent ∉ mid /\ Act MasksSent ∉ post) -> Act Hashed ∉ post -> (forall t, Act MasksSent ∉ W t) ->
  (sendsOf (Barrier p b) pre = [] /\ sendsOf (Barrier p b) mid = [] /\ sendsOf (Barrier p b) post = []) -> (forall t, sendsOf (Barrier p b) (W t) = []) ->
  always_before (map f (seq 0 T) ++ adv) (among T isHash) (among T isMask).
Proof.
  intros Hadv E0 EW (Ha1 & Ha2 & Ha3) Hh HaW (Hs1 & Hs2 & Hs3) HsW.
  apply before_intro. intros tr s v g rest u e rest' Hex Hv [Hvt Hf] Hu Hin [Hut He]. cbn in Hvt, Hf, Hut, He. unfold isHash in He. unfold isMask in Hf. subst g e.
  set (scripts := map f (seq 0 T) ++ adv) in *.
  assert (forall w, (w < T)%nat -> scripts !! w = Some (f w)) as Hsc by (intros w Hw; by apply map_lookup).
  destruct (exec_thr _ _ _ _ _ Hex (Hsc v Hvt)) as (r & Hr & Ev). rewrite Hv in Hr. injection Hr as <-.
  destruct (exec_thr _ _ _ _ _ Hex (Hsc u Hut)) as (r & Hr & Eu). rewrite Hu in Hr. injection Hr as <-.
  destruct v as [|v].
  2: { exfalso. rewrite EW in Ev. assert (Act MasksSent ∈ W v ++ [Snd (Barrier p b) 0]) as H by (rewrite Ev; set_solver).
       apply elem_of_app in H as [H|H]; [by apply HaW in H|set_solver]. }
  rewrite E0 in Ev. symmetry in Ev. apply once in Ev as [Ev Erest]; [|set_solver|done].
  destruct u as [|u].
  - rewrite Hu in Hv. injection Hv as ->. apply elem_of_cons in Hin as [Hin|Hin]; [done|]. by rewrite Erest in Hin.
  - assert (Wai (Barrier p b) (T - 1) ∈ thr 0 tr) as Hw by (rewrite Ev; set_solver). apply (executed _ _ _ _ _ Hex) in Hw. cbn in Hw.
    assert (length (concat (map (sendsOf (Barrier p b)) scripts)) = (T - 1)%nat) as Hcount.
    { unfold scripts. rewrite map_app, concat_app, (arrivals_peer p b adv Hadv), app_nil_r. apply (arrivals_but _ _ 0); [|lia].
      intros [|t]; [rewrite E0, !sendsOf_app, sendsOf_wai, sendsOf_act, Hs1, Hs2, Hs3; done|]. rewrite EW, sendsOf_app, HsW, sendsOf_snd, decide_True by done. done. }
    pose proof (all_arrived _ _ _ _ _ Hcount Hex Hw (S u) rest' Hu) as Hnone. rewrite EW in Eu. symmetry in Eu.
    apply left_over in Eu as (a' & _ & Epost); [|by apply no_sends]. assert (Act Hashed ∈ a' ++ rest') as Hbad by set_solver. rewrite <- Epost in Hbad. by apply elem_of_nil in Hbad.
Qed.

Lemma talk_act me c j m a : Act a ∉ talk me c j m.
Proof. intros H. by apply talk_elem in H as [(? & H)|(? & ? & H)]. Qed.
Lemma routine_mask p c h T t : Act MasksSent ∉ zRoutine p c h T t.
Proof. intros H. by apply routine_elem in H as [H|(? & _ & H)]. Qed.
Ltac none := repeat (rewrite sendsOf_app || rewrite sendsOf_snd || rewrite sendsOf_get || rewrite sendsOf_wai || rewrite sendsOf_act || rewrite talk_sendsOf || rewrite routine_sends); dec; done.
Ltac noact := intros HH; repeat first [by apply elem_of_nil in HH | by apply talk_act in HH | by apply routine_mask in HH | apply elem_of_cons in HH as [HH|HH]; [done|] | apply elem_of_app in HH as [HH|HH]].
Lemma server0_order P p adv : peer true adv -> always_before (map (zServer0 P p) (seq 0 (zT0 P)) ++ adv) (among (zT0 P) isHash) (among (zT0 P) isMask).
Proof.
  intros Hadv. set (h := heard true (zInit P)).
  apply (main_waits true joinB _ _ _ (talk true 0 0 (zInit P) ++ [Get (Chan 2 true) 0 (zBlocks p); Snd (Barrier true zStartB) 0] ++ zRoutine p 0 h (zT0 P) 0)
    [Get (Chan 0 false) (h + dS p) (zIndices p); Get (Chan 0 false) (h + dS p + 1) (zBlocks p); Get (Chan 2 true) 1 (zBlocks p)] (talk true 0 (h + dS p + 2) (zOnline P))
    (fun t => Wai (Barrier true zStartB) 1 :: zRoutine p 0 h (zT0 P) (S t)) Hadv).
  - unfold zServer0. fold h. rewrite <- !app_assoc. done.
  - intros t. done.
  - split_and!; noact.
  - noact.
  - intros t. noact.
  - split_and!; none.
  - intros t. none.
Qed.
Lemma server1_order P p adv : peer false adv -> always_before (map (zServer1 P p) (seq 0 (zT1 P)) ++ adv) (among (zT1 P) isHash) (among (zT1 P) isMask).
Proof.
  intros Hadv.
  apply (main_waits false joinB _ _ _ ([Snd (Chan 2 true) (zBlocks p); Snd (Barrier false zStartB) 0] ++ zRoutine p 1 0 (zT1 P) 0)
    [] [Snd (Chan 2 true) (zBlocks p)] (fun t => Wai (Barrier false zStartB) 1 :: zRoutine p 1 0 (zT1 P) (S t)) Hadv).
  - unfold zServer1. rewrite <- !app_assoc. done.
  - intros t. done.
  - split_and!; noact.
  - noact.
  - intros t. noact.
  - split_and!; none.
  - intros t. none.
Qed.

(** ** A client with fewer regions *)

Lemma sent_bound scripts q tr s : exec (start scripts) tr s -> (length (sentOn q (sentLog s)) <= length (concat (map (sendsOf q) scripts)))%nat.
Proof.
  intros He. rewrite <- (plain_evs scripts) in He. destruct (inv_exec _ _ _ He) as (c & Hlen & Htodo & Hcount & _).
  rewrite Hcount.
  assert (length (concat (map (rsends q) (plain scripts))) = length (concat (map (sendsOf q) scripts))) as <-.
  { unfold plain. clear. induction scripts as [|l ls IH]; [done|]. cbn. rewrite !app_length, rsends_plain. f_equal. exact IH. }
  rewrite (split_prefixes q (plain scripts) c). lia.
Qed.
Lemma sends_zero q (f : nat -> list ev) s T : (forall t, sendsOf q (f t) = []) -> concat (map (sendsOf q) (map f (seq s T))) = [].
Proof. intros H. revert s. induction T as [|T IH]; intros s; [done|]. cbn [seq map concat]. by rewrite H, IH. Qed.
Lemma talk_other q me c j m : (forall d, q <> Chan c d) -> sendsOf q (talk me c j m) = [].
Proof. intros H. apply sendsOf_none. intros k Hk. apply talk_elem in Hk as [(k' & Hk)|(? & ? & Hk)]; [|done]. injection Hk as -> _. by eapply H. Qed.
Lemma drrn_keys_sent P p0 p1 pc : length (concat (map (sendsOf (Chan 1 false)) (drrnScripts P p0 p1 pc))) = dS pc.
Proof.
  unfold drrnScripts. rewrite !map_app, !concat_app. rewrite (sends_zero _ (zServer0 P p0)), (sends_zero _ (zServer1 P p1)).
  - cbn [map concat app]. rewrite app_nil_r. unfold zClient. rewrite !sendsOf_app, !talk_other by congruence. fold (keySends pc). rewrite key_sends, decide_True by tauto.
    cbn [app]. rewrite !sendsOf_snd, !decide_False by congruence. cbn. rewrite app_nil_r. apply replicate_length.
  - intros [|t]; unfold zServer1, done; cbn [app]; repeat (rewrite sendsOf_app || rewrite sendsOf_snd || rewrite sendsOf_get || rewrite sendsOf_wai || rewrite sendsOf_act || rewrite routine_sends); dec; done.
  - intros [|t]; unfold zServer0, done; cbn [app]; rewrite ?sendsOf_app, ?talk_other by congruence;
      repeat (rewrite sendsOf_app || rewrite sendsOf_snd || rewrite sendsOf_get || rewrite sendsOf_wai || rewrite sendsOf_act || rewrite routine_sends); rewrite ?talk_other by congruence; dec; done.
Qed.
Lemma drrn_hangs P p0 p1 pc tr s : (1 <= zT1 P)%nat -> (dS pc < dS p1)%nat -> exec (start (drrnScripts P p0 p1 pc)) tr s -> ~ finished s.
Proof.
  intros HT Hlt Hex Hfin. set (t := (dS pc mod zT1 P)%nat). assert (t < zT1 P)%nat as Ht by (apply Nat.mod_upper_bound; lia).
  assert (drrnScripts P p0 p1 pc !! (zT0 P + t)%nat = Some (zServer1 P p1 t)) as Hl.
  { unfold drrnScripts. rewrite lookup_app_r by (rewrite map_length, seq_length; lia). rewrite map_length, seq_length.
    replace (zT0 P + t - zT0 P)%nat with t by lia. by apply map_lookup. }
  destruct (exec_thr _ _ _ _ _ Hex Hl) as (rest & Hr & E). unfold finished in Hfin. rewrite Forall_lookup in Hfin. rewrite (Hfin _ _ Hr), app_nil_r in E.
  assert (Get (Chan 1 false) (dS pc) (zKeys p1) ∈ zServer1 P p1 t) as Hin.
  { assert (Get (Chan 1 false) (dS pc) (zKeys p1) ∈ zRoutine p1 1 0 (zT1 P) t) as H.
    { unfold zRoutine. apply elem_of_app. left. apply elem_of_list_fmap. exists (dS pc). split; [done|]. by apply mine_elem. }
    destruct t as [|t']; unfold zServer1; set_solver. }
  rewrite E in Hin. apply (executed _ _ _ _ _ Hex) in Hin. cbn in Hin. apply lookup_lt_Some in Hin.
  pose proof (sent_bound _ (Chan 1 false) _ _ Hex) as Hb. rewrite drrn_keys_sent in Hb. lia.
Qed.

(** ** Regions *)

Lemma regions_once T n b : (1 <= T)%nat -> (b < n)%nat -> exists t, (t < T)%nat /\ b ∈ zMine T t n /\ forall t', (t' < T)%nat -> b ∈ zMine T t' n -> t' = t.
Proof.
  intros HT Hb. assert (b mod T < T)%nat as Hm by (apply Nat.mod_upper_bound; lia). exists (b mod T)%nat. split; [done|]. split; [by apply mine_elem|].
  intros t' Ht' H. by apply mine_elem in H as [_ ->].
Qed.
Lemma regions_nodup T t n : (1 <= T)%nat -> NoDup (zMine T t n) /\ Forall (fun b => (b < n)%nat) (zMine T t n).
Proof.
  intros HT. split; [apply stride_nodup; lia|]. unfold zMine. rewrite Forall_forall. intros x Hx. apply stride_elem in Hx as (y & _ & ?); [done|lia|lia].
Qed.
