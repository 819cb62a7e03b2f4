(** Ranks for the scripts of RR17b, GRR18 and RR16. *)
From stdpp Require Import sorting sets.
From Verif Require Import Base Partition_Model Sched_Model Sched_Spec Sched_Proofs Sched_Proofs2 Threads_Model Threads_Proofs Threads_Proofs2.

(** ** RR17b *)

Section rr17b.
Variable P : rr17b.
Hypothesis same : forall t, (t < bT P)%nat -> bCorrS P t = bCorrR P t.
Definition looks (t : nat) : list ev := concat (imap (fun i k => [Get (Chan t true) (heard false (bChk P t) + i) k; Act LookedUp]) (bMasks P t)).
Lemma looks_elem t e : e ∈ looks t -> e = Act LookedUp \/ exists x k, e = Get (Chan t true) (heard false (bChk P t) + x) k /\ bMasks P t !! x = Some k.
Proof.
  intros H. apply elem_of_list_In, in_concat in H as (l & Hl & H). apply elem_of_list_In, elem_of_lookup_imap_1 in Hl as (x & k & -> & Hk).
  destruct H as [<-|[<-|[]]]; [right; eauto|by left].
Qed.
Lemma looks_sends q t : sendsOf q (looks t) = [].
Proof.
  unfold looks. assert (Forall (fun e => match e with Snd _ _ => False | _ => True end) (concat (imap (fun i k => [Get (Chan t true) (heard false (bChk P t) + i) k; Act LookedUp]) (bMasks P t)))) as H.
  { apply Forall_forall. intros e He. apply looks_elem in He as [->|(x & k & -> & _)]; done. }
  induction H as [|e l He _ IH]; [done|]. unfold sendsOf in *. cbn. destruct e; done.
Qed.
Definition bSb (t : nat) : list (nat * list (rank * ev)) :=
  [seg 0 [Act Inserted; Snd (Barrier true barA) 0]; seg 1 [Wai (Barrier true barA) (bT P)]; seg 2 [Wai (Barrier true permB) 1];
   seg 3 (gets (Chan t false) 0 (bCorrS P t)); (4%nat, talkR true t (length (bCorrS P t)) 4 0 (bChk P t));
   seg 6 [Act Checked; Snd (Barrier true barB) 0]; seg 7 (Wai (Barrier true barB) (bT P) :: Act MasksSent :: sends (Chan t true) (bMasks P t)); seg 8 [done true]].
Definition bRb (t : nat) : list (nat * list (rank * ev)) :=
  [seg 0 [Snd (Barrier false barA) 0]; seg 1 (Wai (Barrier false barA) (bT P) :: Act Inserted :: sends (Chan t false) (bCorrR P t));
   (4%nat, talkR false t 0 4 0 (bChk P t)); seg 8 (looks t); seg 9 [done false]].
Definition bX : list (list (rank * ev)) := [permX; flat [seg 10 (senderMain (bT P))]; flat [seg 10 (receiverMain (bT P))]].
Definition bMS (t : nat) : list (rank * N) := said true 4 0 (bChk P t) ++ map (pair (7, 0)%nat) (bMasks P t).
Definition bMR (t : nat) : list (rank * N) := map (pair (1, 0)%nat) (bCorrR P t) ++ said false 4 0 (bChk P t).
Lemma b_scripts : map evs (all (bT P) (fun t => flat (bSb t)) (fun t => flat (bRb t)) bX) = rr17bScripts P.
Proof.
  unfold all, rr17bScripts. rewrite !map_app, !map_map. f_equal; [|f_equal].
  - apply map_ext. intros t. rewrite flat_evs. unfold bSb. cbn [map concat snd]. rewrite !seg_evs, !talkR_evs. unfold bSender, barrier.
    cbn [app]. rewrite ?app_nil_r, <- ?app_assoc. cbn [app]. rewrite <- ?app_assoc. done.
  - apply map_ext. intros t. rewrite flat_evs. unfold bRb. cbn [map concat snd]. rewrite !seg_evs, !talkR_evs. unfold bReceiver, barrier.
    cbn [app]. rewrite ?app_nil_r, <- ?app_assoc. cbn [app]. rewrite <- ?app_assoc. done.
Qed.
Lemma rr17b_completes : completes (rr17bScripts P).
Proof.
  rewrite <- b_scripts. apply (pairs_complete _ _ _ _ bMS bMR).
  - intros t. sorted_tac.
  - intros t. sorted_tac.
  - repeat (apply Forall_cons_2; [sorted_tac|]); apply Forall_nil_2.
  - intros t v d. unfold bSb, bMS. sends_tac t v d.
  - intros t v d. unfold bRb, bMR. simp_sends. rewrite looks_sends. sends_tac t v d.
  - repeat constructor; intros v d; done.
  - intros t r q j k Ht H. unfold bSb in H. parts H.
    + get_tac H t; [|shelve]. apply nth_head, nth_pair. rewrite <- same by done. done. Unshelve. rl.
    + say_tac H t. eapply nth_tail; [rewrite map_length; rewrite same by done; reflexivity|]. done.
  - intros t r q j k Ht H. unfold bRb in H. parts H.
    + say_tac H t. apply nth_head. done.
    + apply looks_elem in H as [H|(x & k' & [= -> -> ->] & H)]; [done|]. exists t, true, (7, 0)%nat. split; [done|]. split; [done|]. split; [|rl].
      eapply nth_tail; [rewrite said_heard; reflexivity|]. by apply nth_pair.
  - repeat (apply Forall_cons_2; [intros r q j k H; unfold permX, permThread, senderMain, receiverMain in H; parts H|]); apply Forall_nil_2.
  - intros t r q n Ht H. unfold bSb in H. parts H; try nowait H.
    + injection H as -> ->. apply arrived_f; [done|]. intros t'. do 2 eexists. split; [eapply (flat_in _ 0 _ _ 1); reflexivity|rl].
    + injection H as -> ->. eapply arrived_x; [left|eapply (flat_in _ 0 _ _ 0); reflexivity|rl].
    + injection H as -> ->. apply arrived_f; [done|]. intros t'. do 2 eexists. split; [eapply (flat_in _ 5 _ _ 1); reflexivity|rl].
  - intros t r q n Ht H. unfold bRb in H. parts H; try nowait H.
    + injection H as -> ->. apply arrived_g; [done|]. intros t'. do 2 eexists. split; [eapply (flat_in _ 0 _ _ 0); reflexivity|rl].
    + by apply looks_elem in H as [H|(x & k' & H & _)].
  - apply Forall_cons_2; [|apply Forall_cons_2; [|apply Forall_cons_2; [|apply Forall_nil_2]]]; intros r q n H; unfold permX, permThread, senderMain, receiverMain in H; parts H.
    + injection H as -> ->. eapply arrived_fx; [|left|eapply (flat_in _ 0 _ _ 1); reflexivity|rl].
      intros t'. do 2 eexists. split; [eapply (flat_in _ 7 _ _ 0); reflexivity|rl].
    + injection H as -> ->. apply arrived_g; [done|]. intros t'. do 2 eexists. split; [eapply (flat_in _ 4 _ _ 0); reflexivity|rl].
Qed.
End rr17b.

(** ** GRR18 *)

Section grr18.
Variable P : grr18.
Definition gSb (t : nat) : list (nat * list (rank * ev)) :=
  let corrR := gCorr P (gLoadsR P) t in
  [seg 0 [Act Inserted; Snd (Barrier true barA) 0];
   seg 1 (Wai (Barrier true barA) (gT P) :: sends (Chan t true) (gHead P t) ++ sends (Chan t true) (gCorr P (gLoadsS P) t));
   seg 3 (gets (Chan t false) 0 (gHead P t) ++ [Snd (Barrier true barC) 0]); seg 4 [Wai (Barrier true barC) (gT P); Snd (Chan t true) 8];
   seg 5 (gets (Chan t false) 2 corrR ++ [Snd (Chan t true) (gFin P true t)]);
   seg 7 [Get (Chan t false) (2 + length corrR) (gFin P false t); Snd (Chan t true) (gChal P true t)];
   seg 9 [Get (Chan t false) (3 + length corrR) (gChal P false t); Get (Chan t false) (4 + length corrR) (gProof P false t); Act Checked; Snd (Barrier true barB) 0];
   seg 10 (Wai (Barrier true barB) (gT P) :: Act MasksSent :: sends (Chan t true) (gMasks P t) ++ [Snd (Chan t true) (gProof P true t)]); seg 11 [done true]].
Definition gRb (t : nat) : list (nat * list (rank * ev)) :=
  let corrS := gCorr P (gLoadsS P) t in
  [seg 0 [Snd (Barrier false barA) 0];
   seg 2 (Wai (Barrier false barA) (gT P) :: Get (Chan t true) 1 ((gRange P t).2 - (gRange P t).1) :: sends (Chan t false) (gHead P t) ++ sends (Chan t false) (gCorr P (gLoadsR P) t));
   seg 3 (Get (Chan t true) 0 8 :: gets (Chan t true) 2 corrS ++ [Snd (Chan t false) (gFin P false t)]);
   seg 6 [Get (Chan t true) (3 + length corrS) (gFin P true t); Snd (Chan t false) (gChal P false t)];
   seg 8 [Get (Chan t true) (4 + length corrS) (gChal P true t); Snd (Chan t false) (gProof P false t); Act Inserted; Snd (Barrier false barB) 0];
   seg 9 [Wai (Barrier false barB) (gT P); Get (Chan t true) (2 + length corrS) 8; Act LookedUp];
   seg 11 (gets (Chan t true) (5 + length corrS) (gMasks P t) ++ [Get (Chan t true) (5 + length corrS + length (gMasks P t)) (gProof P true t)]); seg 12 [done false]].
Definition gX : list (list (rank * ev)) := [flat [seg 13 [Wai (Barrier true joinB) (gT P)]]; flat [seg 13 (receiverMain (gT P))]].
Definition gMS (t : nat) : list (rank * N) :=
  map (pair (1, 0)%nat) (gHead P t) ++ map (pair (1, 0)%nat) (gCorr P (gLoadsS P) t) ++ [((4, 0)%nat, 8); ((5, 0)%nat, gFin P true t); ((7, 0)%nat, gChal P true t)] ++
  map (pair (10, 0)%nat) (gMasks P t) ++ [((10, 0)%nat, gProof P true t)].
Definition gMR (t : nat) : list (rank * N) :=
  map (pair (2, 0)%nat) (gHead P t) ++ map (pair (2, 0)%nat) (gCorr P (gLoadsR P) t) ++ [((3, 0)%nat, gFin P false t); ((6, 0)%nat, gChal P false t); ((8, 0)%nat, gProof P false t)].
Lemma g_scripts : map evs (all (gT P) (fun t => flat (gSb t)) (fun t => flat (gRb t)) gX) = grr18Scripts P.
Proof.
  unfold all, grr18Scripts. rewrite !map_app, !map_map. f_equal; [|f_equal].
  - apply map_ext. intros t. rewrite flat_evs. unfold gSb. cbn [map concat snd]. rewrite !seg_evs. unfold gSender, barrier.
    repeat first [progress cbn [app] | rewrite app_nil_r | rewrite <- app_assoc]. done.
  - apply map_ext. intros t. rewrite flat_evs. unfold gRb. cbn [map concat snd]. rewrite !seg_evs. unfold gReceiver, barrier.
    repeat first [progress cbn [app] | rewrite app_nil_r | rewrite <- app_assoc]. done.
Qed.
Lemma nth_mid {A} (l1 l2 : list A) n j x y : length l1 = n -> j = (n + x)%nat -> l2 !! x = Some y -> (l1 ++ l2) !! j = Some y.
Proof. intros <-. apply nth_tail. Qed.
Ltac fin t d r := exists t, d, (r, 0%nat); split; [done|]; split; [reflexivity|]; split; [|rl].
Lemma grr18_completes : completes (grr18Scripts P).
Proof.
  rewrite <- g_scripts. apply (pairs_complete _ _ _ _ gMS gMR).
  - intros t. sorted_tac.
  - intros t. sorted_tac.
  - repeat (apply Forall_cons_2; [sorted_tac|]); apply Forall_nil_2.
  - intros t v d. unfold gSb, gMS. sends_tac t v d.
  - intros t v d. unfold gRb, gMR. sends_tac t v d.
  - repeat constructor; intros v d; done.
  - intros t r q j k Ht H. unfold gSb in H. parts H.
    + get_tac H t; [by apply nth_head, nth_pair|rl].
    + get_tac H t; [eapply (nth_mid _ _ 2); [done|reflexivity|]; by apply nth_head, nth_pair|rl].
    + injection H as -> -> ->. fin t false 3%nat. eapply (nth_mid _ _ 2); [done|reflexivity|]. by eapply nth_tail; [rewrite map_length; symmetry; apply Nat.add_0_r|].
    + injection H as -> -> ->. fin t false 6%nat. eapply (nth_mid _ _ 2); [done|reflexivity|]. by eapply nth_tail; [rewrite map_length, (Nat.add_comm _ 1); reflexivity|].
    + injection H as -> -> ->. fin t false 8%nat. eapply (nth_mid _ _ 2); [done|reflexivity|]. by eapply nth_tail; [rewrite map_length, (Nat.add_comm _ 2); reflexivity|].
  - intros t r q j k Ht H. unfold gRb in H. parts H.
    + injection H as -> -> ->. fin t true 1%nat. done.
    + injection H as -> -> ->. fin t true 1%nat. done.
    + get_tac H t; [eapply (nth_mid _ _ 2); [done|reflexivity|]; by apply nth_head, nth_pair|rl].
    + injection H as -> -> ->. fin t true 5%nat. eapply (nth_mid _ _ 2); [done|reflexivity|]. by eapply nth_tail; [rewrite map_length, (Nat.add_comm _ 1); reflexivity|].
    + injection H as -> -> ->. fin t true 7%nat. eapply (nth_mid _ _ 2); [done|reflexivity|]. by eapply nth_tail; [rewrite map_length, (Nat.add_comm _ 2); reflexivity|].
    + injection H as -> -> ->. fin t true 4%nat. eapply (nth_mid _ _ 2); [done|reflexivity|]. by eapply nth_tail; [rewrite map_length; symmetry; apply Nat.add_0_r|].
    + apply gets_elem in H as (x & k' & [= -> -> ->] & H). fin t true 10%nat. eapply (nth_mid _ _ 2); [done|reflexivity|].
      eapply (nth_tail _ _ _ (3 + x)); [rewrite map_length; lia|]. cbn. apply nth_head. by apply nth_pair.
    + injection H as -> -> ->. fin t true 10%nat. eapply (nth_mid _ _ 2); [done|reflexivity|].
      eapply (nth_tail _ _ _ (3 + length (gMasks P t))); [rewrite map_length; lia|]. cbn. by eapply nth_tail; [rewrite map_length; symmetry; apply Nat.add_0_r|].
  - repeat (apply Forall_cons_2; [intros r q j k H; unfold receiverMain in H; parts H|]); apply Forall_nil_2.
  - intros t r q n Ht H. unfold gSb in H. parts H; try nowait H.
    + injection H as -> ->. apply arrived_f; [done|]. intros t'. do 2 eexists. split; [eapply (flat_in _ 0 _ _ 1); reflexivity|rl].
    + injection H as -> ->. apply arrived_f; [done|]. intros t'. do 2 eexists. split; [eapply (flat_in _ 2 _ _ 2); reflexivity|rl].
    + injection H as -> ->. apply arrived_f; [done|]. intros t'. do 2 eexists. split; [eapply (flat_in _ 6 _ _ 3); reflexivity|rl].
  - intros t r q n Ht H. unfold gRb in H. parts H; try nowait H.
    + injection H as -> ->. apply arrived_g; [done|]. intros t'. do 2 eexists. split; [eapply (flat_in _ 0 _ _ 0); reflexivity|rl].
    + injection H as -> ->. apply arrived_g; [done|]. intros t'. do 2 eexists. split; [eapply (flat_in _ 4 _ _ 3); reflexivity|rl].
  - apply Forall_cons_2; [|apply Forall_cons_2; [|apply Forall_nil_2]]; intros r q n H; unfold receiverMain in H; parts H.
    + injection H as -> ->. apply arrived_f; [done|]. intros t'. do 2 eexists. split; [eapply (flat_in _ 8 _ _ 0); reflexivity|rl].
    + injection H as -> ->. apply arrived_g; [done|]. intros t'. do 2 eexists. split; [eapply (flat_in _ 7 _ _ 0); reflexivity|rl].
Qed.
End grr18.

(** ** RR16 *)

Lemma many_but r q (h : nat -> list (rank * ev)) c s n : (forall t, (s <= t < s + n)%nat -> t <> c -> (1 <= length (before r (rsends q (h t))))%nat) ->
  (n - (if decide (s <= c < s + n)%nat then 1 else 0) <= length (before r (concat (map (rsends q) (map h (seq s n))))))%nat.
Proof.
  revert s. induction n as [|n IH]; intros s H; [lia|]. cbn [seq map concat]. rewrite before_app, app_length.
  specialize (IH (S s) ltac:(intros; apply H; lia)). destruct (decide (s = c)) as [->|Hne].
  - repeat case_decide; lia.
  - specialize (H s ltac:(lia) Hne). repeat case_decide; lia.
Qed.
Lemma arrived_g_but T f g x r q n c : (n <= T - 1)%nat -> (forall t, t <> c -> exists r' k, (r', Snd q k) ∈ g t /\ rlt r' r) -> (n <= arrived T f g x r q)%nat.
Proof.
  intros Hn H. rewrite arrived_split. pose proof (many_but r q g c 0 T) as Hm.
  enough (T - 1 <= length (before r (concat (map (rsends q) (map g (seq 0 T))))))%nat by lia. etrans; [|apply Hm].
  - case_decide; lia.
  - intros t _ Hne. destruct (H t Hne) as (r' & k & Hin & Hlt). by eapply arrives.
Qed.
Lemma arrived_g1 T f g x r q t r' k : (t < T)%nat -> (r', Snd q k) ∈ g t -> rlt r' r -> (1 <= arrived T f g x r q)%nat.
Proof.
  intros Ht Hin Hlt. pose proof (arrives r q (g t) r' k Hin Hlt) as H. rewrite arrived_split.
  enough (1 <= length (before r (concat (map (rsends q) (map g (seq 0 T))))))%nat by lia.
  assert (seq 0 T = seq 0 t ++ seq (0 + t) (S (T - S t))) as -> by (rewrite <- seq_app; f_equal; lia).
  rewrite !map_app. cbn [seq Nat.add]. cbn [map]. rewrite concat_app. cbn [concat]. rewrite !before_app, !app_length. lia.
Qed.

Section rr16.
Variable P : rr16.
Hypothesis first : (cFirst P < cT P)%nat.
Definition cSb (t : nat) : list (nat * list (rank * ev)) :=
  [seg 4 [Wai (Barrier true spawnB) 1; Wai (Barrier true barA) 1; Act MasksSent; Snd (Chan t true) (cMasks P t)]; seg 5 [done true]].
Definition cRb (t : nat) : list (nat * list (rank * ev)) :=
  [seg 0 [Act Hashed; Snd (Barrier false barA) 0]; seg 1 [Wai (Barrier false barA) (cT P)]] ++
  (if (t =? 0)%nat then [seg 2 [Snd (Chan 0 false) (cBf P); Snd (Barrier false permB) 0]] else [seg 3 [Wai (Barrier false permB) 1]]) ++
  (if (t =? cFirst P)%nat then [seg 5 [Wai (Barrier false barB) (cT P - 1); Act Inserted; Snd (Barrier false barC) 0]] else [seg 4 [Act Inserted; Snd (Barrier false barB) 0]; seg 6 [Wai (Barrier false barC) 1]]) ++
  [seg 7 [Get (Chan t true) 0 (cMasks P t); Act LookedUp; done false]].
Definition cX : list (list (rank * ev)) :=
  [flat [seg 3 [Get (Chan 0 false) 0 (cBf P); Snd (Barrier true spawnB) 0; Act Checked; Snd (Barrier true barA) 0]; seg 8 [Wai (Barrier true joinB) (cT P)]];
   flat [seg 8 (receiverMain (cT P))]].
Definition cMS (t : nat) : list (rank * N) := [((4, 0)%nat, cMasks P t)].
Definition cMR (t : nat) : list (rank * N) := if (t =? 0)%nat then [((2, 0)%nat, cBf P)] else [].
Lemma c_scripts : map evs (all (cT P) (fun t => flat (cSb t)) (fun t => flat (cRb t)) cX) = rr16Scripts P.
Proof.
  unfold all, rr16Scripts. rewrite !map_app, !map_map. f_equal. f_equal.
  - apply map_ext. intros t. rewrite flat_evs. unfold cRb, cReceiver, barrier. destruct (t =? 0)%nat, (t =? cFirst P)%nat; done.
Qed.
Lemma rr16_completes : completes (rr16Scripts P).
Proof.
  rewrite <- c_scripts. apply (pairs_complete _ _ _ _ cMS cMR).
  - intros t. sorted_tac.
  - intros t. unfold cRb. destruct (t =? 0)%nat, (t =? cFirst P)%nat; cbn [app]; sorted_tac.
  - repeat (apply Forall_cons_2; [sorted_tac|]); apply Forall_nil_2.
  - intros t v d. unfold cSb, cMS. sends_tac t v d.
  - intros t v d. unfold cRb, cMR. destruct (Nat.eqb_spec t 0) as [Ht|Ht]; destruct (t =? cFirst P)%nat; cbn [app]; simp_sends;
      destruct (Nat.eqb_spec t v) as [E|E]; destruct d; subst; dec; done.
  - repeat constructor; intros v d; done.
  - intros t r q j k Ht H. unfold cSb in H. parts H.
  - intros t r q j k Ht H. assert (r = (7, 0)%nat /\ q = Chan t true /\ j = 0%nat /\ k = cMasks P t) as (-> & -> & -> & ->).
    { unfold cRb in H. destruct (t =? 0)%nat, (t =? cFirst P)%nat; cbn [app] in H; parts H; by injection H as -> -> ->. }
    exists t, true, (4, 0)%nat. split; [done|]. split; [done|]. split; [done|rl].
  - apply Forall_cons_2; [|apply Forall_cons_2; [|apply Forall_nil_2]]; intros r q j k H; unfold receiverMain in H; parts H.
    injection H as -> -> ->. exists 0%nat, false, (2, 0)%nat. split; [lia|]. split; [done|]. split; [done|rl].
  - intros t r q n Ht H. unfold cSb in H. parts H.
    + injection H as -> ->. eapply arrived_x; [left|eapply (flat_in _ 0 _ _ 1); reflexivity|rl].
    + injection H as -> ->. eapply arrived_x; [left|eapply (flat_in _ 0 _ _ 3); reflexivity|rl].
  - intros t r q n Ht H.
    assert (r = (1, 0)%nat /\ q = Barrier false barA /\ n = cT P \/ r = (3, 0)%nat /\ q = Barrier false permB /\ n = 1%nat \/
            r = (5, 0)%nat /\ q = Barrier false barB /\ n = (cT P - 1)%nat \/ r = (6, 0)%nat /\ q = Barrier false barC /\ n = 1%nat) as [(-> & -> & ->)|[(-> & -> & ->)|[(-> & -> & ->)|(-> & -> & ->)]]].
    { unfold cRb in H. destruct (t =? 0)%nat, (t =? cFirst P)%nat; cbn [app] in H; parts H; injection H as -> ->; naive_solver. }
    + apply arrived_g; [done|]. intros t'. do 2 eexists. split; [eapply (flat_in _ 0 _ _ 1); reflexivity|rl].
    + eapply (arrived_g1 _ _ _ _ _ _ 0); [lia|eapply (flat_in _ 2 _ _ 1); reflexivity|rl].
    + eapply (arrived_g_but _ _ _ _ _ _ _ (cFirst P)); [lia|]. intros t' Hne. apply Nat.eqb_neq in Hne. exists (4, 0)%nat, 0. split; [eapply (flat_in _ 3 _ [Act Inserted; Snd (Barrier false barB) 0] 1); [|reflexivity]|].
      * unfold cRb. rewrite Hne. destruct (t' =? 0)%nat; reflexivity.
      * rl.
    + eapply (arrived_g1 _ _ _ _ _ _ (cFirst P)); [done|eapply (flat_in _ 3 5 [Wai (Barrier false barB) (cT P - 1); Act Inserted; Snd (Barrier false barC) 0] 2); [|reflexivity]|].
      * unfold cRb. rewrite Nat.eqb_refl. destruct (cFirst P =? 0)%nat; reflexivity.
      * rl.
  - apply Forall_cons_2; [|apply Forall_cons_2; [|apply Forall_nil_2]]; intros r q n H; unfold receiverMain in H; parts H.
    + injection H as -> ->. apply arrived_f; [done|]. intros t'. do 2 eexists. split; [eapply (flat_in _ 1 _ _ 0); reflexivity|rl].
    + injection H as -> ->. apply arrived_g; [done|]. intros t'. exists (7, 0)%nat, 0. split; [|rl].
      unfold cRb. destruct (t' =? 0)%nat, (t' =? cFirst P)%nat; cbn [app]; [eapply (flat_in _ 4 _ _ 2)|eapply (flat_in _ 5 _ _ 2)|eapply (flat_in _ 4 _ _ 2)|eapply (flat_in _ 5 _ _ 2)]; reflexivity.
Qed.
End rr16.
