(** Every schedule of KKRT and of threads in phases completes. *)
From stdpp Require Import sorting sets.
From Verif Require Import Base Partition_Model Sched_Model Sched_Spec Sched_Proofs Sched_Proofs2 Sched_Proofs3 Threads_Model Threads_Proofs Threads_Proofs2 Threads_Proofs4 Kkrt_Model KkrtMain_Proofs Phases_Model.

(** ** KKRT *)

Lemma recvs_sends q ks : forall j, sendsOf q (kRecvs j ks) = if decide (Barrier true barA = q) then replicate (length ks) 0 else [].
Proof.
  induction ks as [|k ks IH]; intros j; cbn [kRecvs]; [by destruct (decide _)|]. rewrite sendsOf_get, sendsOf_snd, IH. by destruct (decide _).
Qed.
Lemma recvs_elem e ks : forall j, e ∈ kRecvs j ks -> e = Snd (Barrier true barA) 0 \/ exists x k, e = Get (Chan 0 false) (j + x) k /\ ks !! x = Some k.
Proof.
  induction ks as [|k ks IH]; intros j; cbn [kRecvs]; [by intros ?%elem_of_nil|]. intros H. apply elem_of_cons in H as [->|H]; [right; exists 0%nat, k; by rewrite Nat.add_0_r|].
  apply elem_of_cons in H as [->|H]; [by left|]. apply IH in H as [->|(x & k' & -> & H)]; [by left|]. right. exists (S x), k'. split; [|done]. f_equal. lia.
Qed.

Section kkrt.
Variable P : kkrtNet.
Hypothesis sameBins : kBinsS P = kBinsR P.
Hypothesis sameMask : kMaskS P = kMaskR P.
Hypothesis sameN : kNS P = kNR P.
Lemma kcorr : kCorrS P = kCorrR P.
Proof using sameBins. unfold kCorrS, kCorrR. by rewrite sameBins, corr_equal. Qed.
Lemma kmasks : kMasksS P = kMasksR P.
Proof using sameMask sameN. unfold kMasksS, kMasksR. by rewrite sameMask, sameN, mask_equal. Qed.
Definition kSeedsB (me : bool) : list (nat * list (rank * ev)) :=
  [seg 0 [Snd (Chan 0 me) 16]; (1%nat, talkR me 0 1 1 0 (kBase P)); seg 2 [Get (Chan 0 (negb me)) 0 16]; (3%nat, talkR me 0 (S (heard me (kBase P))) 3 0 (kOprf P))].
Definition kMainB : list (nat * list (rank * ev)) :=
  [seg 0 [Snd (Chan 0 true) 16]; (1%nat, talkR true 0 1 1 0 (kBase P)); seg 2 [Get (Chan 0 false) 0 16]; (3%nat, talkR true 0 (S (heard true (kBase P))) 3 0 (kOprf P));
   seg 4 [Snd (Barrier true kStartB) 0]; seg 8 [Wai (Barrier true barA) (length (kCorrS P))]; seg 9 (Act MasksSent :: sends (Chan 0 true) (kMasksS P) ++ [Snd (Chan 0 true) 1]);
   seg 11 [Wai (Barrier true joinB) 1]].
Definition kThreadB : list (nat * list (rank * ev)) :=
  [seg 5 [Wai (Barrier true kStartB) 1]; seg 7 (kRecvs (kHeard true P) (kCorrS P)); seg 8 [done true]].
Definition kReceiverB : list (nat * list (rank * ev)) :=
  [seg 0 [Snd (Chan 0 false) 16]; (1%nat, talkR false 0 1 1 0 (kBase P)); seg 2 [Get (Chan 0 true) 0 16]; (3%nat, talkR false 0 (S (heard false (kBase P))) 3 0 (kOprf P));
   seg 6 (sends (Chan 0 false) (kCorrR P)); seg 10 (Act Inserted :: gets (Chan 0 true) (kHeard false P) (kMasksR P))].
Definition kM (me : bool) : list (rank * N) :=
  ((0, 0)%nat, 16) :: said me 1 0 (kBase P) ++ said me 3 0 (kOprf P) ++ (if me then map (pair (9, 0)%nat) (kMasksS P ++ [1]) else map (pair (6, 0)%nat) (kCorrR P)).
Definition kall : list (list (rank * ev)) := [flat kMainB; flat kThreadB; flat kReceiverB].
Lemma k_scripts : map evs kall = kkrtScripts P.
Proof.
  unfold kall, kkrtScripts. cbn [map]. rewrite !flat_evs. unfold kMainB, kThreadB, kReceiverB. cbn [map concat snd app]. rewrite !seg_evs, !talkR_evs.
  unfold kMain, kThread, kReceiver, kSeeds. cbn [app negb]. rewrite ?app_nil_r. repeat (cbn [app]; rewrite <- ?app_assoc). done.
Qed.
Lemma main_sends v d : rsends (Chan v d) (flat kMainB) = if (d && (0 =? v)%nat)%bool then kM true else [].
Proof. unfold kMainB, kM. sends_tac 0%nat v d. Qed.
Lemma thread_sends v d : rsends (Chan v d) (flat kThreadB) = [].
Proof. unfold kThreadB, done. simp_sends. rewrite recvs_sends. dec. done. Qed.
Lemma receiver_sends v d : rsends (Chan v d) (flat kReceiverB) = if (negb d && (0 =? v)%nat)%bool then kM false else [].
Proof. unfold kReceiverB, kM. sends_tac 0%nat v d. Qed.
Lemma k_met d r j k r' : kM d !! j = Some (r', k) -> rlt r' r ->
  exists u lu r', kall !! u = Some lu /\ (forall v lv, kall !! v = Some lv -> v <> u -> rsends (Chan 0 d) lv = []) /\ rsends (Chan 0 d) lu !! j = Some (r', k) /\ rlt r' r.
Proof.
  intros Hj Hr. exists (if d then 0%nat else 2%nat), (if d then flat kMainB else flat kReceiverB), r'. split; [by destruct d|]. split; [|split; [|done]].
  - intros v lv Hv Hne. destruct v as [|[|[|v]]]; [| | |done]; injection Hv as <-; rewrite ?main_sends, ?thread_sends, ?receiver_sends; by destruct d.
  - destruct d; rewrite ?main_sends, ?receiver_sends; done.
Qed.
Lemma said_len d p m : length (said d p 0 m) = heard (negb d) m.
Proof. apply said_heard. Qed.
Lemma kkrt_completes : completes (kkrtScripts P).
Proof using sameBins sameMask sameN.
  rewrite <- k_scripts. apply ranked_completes. split.
  - intros i l Hi. destruct i as [|[|[|i]]]; [| | |done]; injection Hi as <-; [unfold kMainB|unfold kThreadB|unfold kReceiverB]; sorted_tac.
  - assert (forall me r q j k, (r, Get q j k) ∈ flat (kSeedsB me) -> q = Chan 0 (negb me) /\ exists r', kM (negb me) !! j = Some (r', k) /\ rlt r' r) as Hseeds.
    { intros me r q j k H. unfold kSeedsB in H. parts H.
      - apply talkR_get in H as (-> & x & r' & H & -> & L). split; [done|]. exists r'. split; [|done]. unfold kM. cbn [Nat.add lookup list_lookup]. by apply nth_head.
      - injection H as -> -> ->. split; [done|]. exists (0, 0)%nat. split; [done|rl].
      - apply talkR_get in H as (-> & x & r' & H & -> & L). split; [done|]. exists r'. split; [|done]. unfold kM. cbn [Nat.add lookup list_lookup].
        eapply nth_tail; [by rewrite said_len, negb_involutive|]. by apply nth_head. }
    intros i l r q j k Hi H. destruct i as [|[|[|i]]]; [| | |done]; injection Hi as <-.
    + assert ((r, Get q j k) ∈ flat (kSeedsB true)) as H'.
      { unfold kMainB in H. unfold kSeedsB. cbn [negb]. change (?a :: ?b :: ?c :: ?d :: ?e) with ([a; b; c; d] ++ e) in H. unfold flat in H |- *. rewrite map_app, concat_app in H.
        apply elem_of_app in H as [H|H]; [done|]. exfalso. fold (flat [seg 4 [Snd (Barrier true kStartB) 0]; seg 8 [Wai (Barrier true barA) (length (kCorrS P))];
          seg 9 (Act MasksSent :: sends (Chan 0 true) (kMasksS P) ++ [Snd (Chan 0 true) 1]); seg 11 [Wai (Barrier true joinB) 1]]) in H. parts H. }
      destruct (Hseeds _ _ _ _ _ H') as (-> & r' & Hj & L). by eapply k_met.
    + unfold kThreadB, done in H. parts H. apply recvs_elem in H as [H|(x & k' & [= -> -> ->] & H)]; [done|].
      eapply (k_met false); [|instantiate (1 := (6, 0)%nat); rl]. unfold kM, kHeard. cbn [Nat.add lookup list_lookup].
      eapply nth_tail; [rewrite said_len; cbn [negb]; rewrite <- Nat.add_assoc; reflexivity|]. eapply nth_tail; [by rewrite said_len|]. apply nth_pair. by rewrite <- kcorr.
    + unfold kReceiverB in H. change (?a :: ?b :: ?c :: ?d :: ?e) with ([a; b; c; d] ++ e) in H. unfold flat in H. rewrite map_app, concat_app in H.
      apply elem_of_app in H as [H|H].
      * destruct (Hseeds false _ _ _ _ H) as (-> & r' & Hj & L). by eapply k_met.
      * fold (flat [seg 6 (sends (Chan 0 false) (kCorrR P)); seg 10 (Act Inserted :: gets (Chan 0 true) (kHeard false P) (kMasksR P))]) in H. parts H.
        apply gets_elem in H as (x & k' & [= -> -> ->] & H). eapply (k_met true); [|instantiate (1 := (9, 0)%nat); rl]. unfold kM, kHeard. cbn [Nat.add lookup list_lookup].
        eapply nth_tail; [rewrite said_len; cbn [negb]; rewrite <- Nat.add_assoc; reflexivity|]. eapply nth_tail; [by rewrite said_len|]. apply nth_pair. rewrite kmasks. by apply nth_head.
  - intros i l r q n Hi H. unfold kall. cbn [map concat]. rewrite !before_app, !app_length. destruct i as [|[|[|i]]]; [| | |done]; injection Hi as <-.
    + unfold kMainB in H. parts H; try nowait H; injection H as -> ->.
      * enough (length (kCorrS P) <= length (before (8, 0)%nat (rsends (Barrier true barA) (flat kThreadB))))%nat by lia.
        unfold kThreadB, done. simp_sends. rewrite recvs_sends. dec. rewrite ?app_nil_r. cbn [map app]. rewrite ?app_nil_r. clear. induction (kCorrS P) as [|k ks IH]; [done|].
        cbn [length replicate map]. unfold before in *. rewrite filter_cons_True by rl. cbn [length]. lia.
      * enough (1 <= length (before (11, 0)%nat (rsends (Barrier true joinB) (flat kThreadB))))%nat by lia.
        eapply (arrives _ _ _ (8, 0)%nat); [eapply (flat_in _ 2 _ _ 0); reflexivity|rl].
    + unfold kThreadB, done in H. parts H.
      * injection H as -> ->. enough (1 <= length (before (5, 0)%nat (rsends (Barrier true kStartB) (flat kMainB))))%nat by lia.
        eapply (arrives _ _ _ (4, 0)%nat); [eapply (flat_in _ 4 _ _ 0); reflexivity|rl].
      * apply recvs_elem in H as [H|(x & k' & H & _)]; discriminate.
    + unfold kReceiverB in H. parts H; nowait H.
Qed.
End kkrt.

(** In every schedule the KKRT sender has all corrections before it sends the first mask, whatever the receiver does. *)
Lemma recvs_after ks : forall j x e, kRecvs j ks !! x = Some e -> receives e -> exists y k, (x < y)%nat /\ kRecvs j ks !! y = Some (Snd (Barrier true barA) k).
Proof.
  induction ks as [|k ks IH]; intros j x e H He; cbn [kRecvs] in *; [done|]. destruct x as [|[|x]]; cbn in H.
  - exists 1%nat, 0. split; [lia|done].
  - injection H as <-. by destruct He as (? & ? & ? & ?).
  - destruct (IH _ _ _ H He) as (y & k' & Hy & Hl). exists (S (S y)), k'. split; [lia|done].
Qed.
Lemma kkrt_order P adv : peer true adv -> always_before (kMain P :: kThread P :: adv) (fun e => e.1 = 1%nat /\ receives e.2) (fun e => e.1 = 0%nat /\ isMask e.2).
Proof.
  intros Hadv. apply (barrier_order _ (Barrier true barA) (length (kCorrS P))).
  - cbn [map concat]. rewrite (arrivals_peer true barA adv Hadv), app_nil_r. unfold kMain, kThread, kSeeds, done. cbn [app].
    repeat first [rewrite sendsOf_app | rewrite sendsOf_snd | rewrite sendsOf_get | rewrite sendsOf_wai | rewrite sendsOf_act | rewrite sendsOf_nil | rewrite talk_sendsOf | rewrite sends_sendsOf | rewrite recvs_sends].
    dec. cbn [app]. rewrite ?app_nil_r, decide_False by done. cbn [app]. by rewrite replicate_length.
  - intros u l x e Hl Hx [Hu He]. cbn in Hu, He. subst u. cbn in Hl. injection Hl as <-. unfold kThread in Hx |- *.
    destruct x as [|x]; cbn in Hx; [injection Hx as <-; by destruct He as (? & ? & ? & ?)|].
    apply lookup_app_Some in Hx as [Hx|[_ Hx]].
    + destruct (recvs_after _ _ _ _ Hx He) as (y & k & Hy & Hl). exists (S y), k. split; [lia|]. cbn. by apply lookup_app_l_Some.
    + apply elem_of_list_lookup_2, elem_of_list_singleton in Hx as ->. by destruct He as (? & ? & ? & ?).
  - intros v l x f Hl Hx [Hv Hf]. cbn in Hv, Hf. subst v. change (Some (kMain P) = Some l) in Hl. injection Hl as <-. unfold isMask in Hf. subst f. unfold kMain in Hx |- *.
    exists (S (length (kSeeds true P))). apply lookup_app_Some in Hx as [Hx|[Hge Hx]].
    + exfalso. apply elem_of_list_lookup_2 in Hx. unfold kSeeds in Hx. apply elem_of_cons in Hx as [Hx|Hx]; [done|]. apply elem_of_app in Hx as [Hx|Hx].
      * by apply talk_elem in Hx as [(? & ?)|(? & ? & ?)].
      * apply elem_of_cons in Hx as [Hx|Hx]; [done|]. by apply talk_elem in Hx as [(? & ?)|(? & ? & ?)].
    + split; [|rewrite lookup_app_r by lia; by replace (S (length (kSeeds true P)) - length (kSeeds true P))%nat with 1%nat by lia].
      destruct (x - length (kSeeds true P))%nat as [|[|n]] eqn:En; [done|done|lia].
Qed.
